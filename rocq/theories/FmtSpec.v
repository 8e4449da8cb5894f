(** Vocabulary for the claims about typed messages in other formats and publishers that hold their message. *)
From Verif Require Import Base Sample MsgModel FmtModel.

(** ** What the program expects of publishers that hold their message: each has a topic and a message, or nothing; a message has
    a type and the value written last *)
Inductive has := HasNothing | HasTopic (t : text) (m : option nat).
Record hworld := HWorld {
  hw_pubs : list (nat * (bool * has));
  hw_msgs : list (bool * text);         (* message i: a protobuf message (or a builder), its type *)
  hw_log : list (nat * list Z) }.       (* the values written, newest first *)
Definition hw_init : hworld := HWorld [] [] [].
Definition hw_value (m : nat) (w : hworld) : list Z :=
  match find (fun e => Nat.eqb (fst e) m) (hw_log w) with Some (_, v) => v | None => [] end.
Definition hw_holds (k : nat) (w : hworld) : option nat :=
  match aget k (hw_pubs w) with Some (_, HasTopic _ m) => m | _ => None end.
Definition hw_made (sh : bool) (ty : text) (v : list Z) (w : hworld) : hworld :=
  HWorld (hw_pubs w) (hw_msgs w ++ [(sh, ty)]) ((length (hw_msgs w), v) :: hw_log w).
Definition hw_give (k : nat) (d : bool) (h : has) (w : hworld) : hworld := HWorld (aset k (d, h) (hw_pubs w)) (hw_msgs w) (hw_log w).
Definition hw_wrote (m : nat) (v : list Z) (w : hworld) : hworld := HWorld (hw_pubs w) (hw_msgs w) ((m, v) :: hw_log w).
Definition hw_type (m : nat) (w : hworld) : text := snd (nth m (hw_msgs w) (false, [])).
Definition hw_shared (m : nat) (w : hworld) : bool := fst (nth m (hw_msgs w) (false, [])).

Section Expect.
  Variable generated : text -> bool.
  (** What an action does, and what is seen of it. *)
  Definition hw_step (w : hworld) (a : hact) : hworld * hout :=
    match a with
    | HCapnp k t ty => (hw_give k false (HasTopic t (Some (length (hw_msgs w)))) (hw_made false ty [] w), HAnnounce t ty)
    | HMessage ty v => (hw_made true ty v w, HDone)
    | HDyn k t m => (hw_give k true (HasTopic t m) w, HAnnounce t (match m with Some m => hw_type m w | None => [] end))
    | HName k t ty => if generated ty
                      then (hw_give k true (HasTopic t (Some (length (hw_msgs w)))) (hw_made true ty [] w), HAnnounce t ty)
                      else (w, HThrow)
    | HEdit k v => match hw_holds k w with Some m => (hw_wrote m v w, HDone) | None => (w, HDone) end
    | HWrite m v => (hw_wrote m v w, HDone)
    | HSend k => (w, match aget k (hw_pubs w) with Some (_, HasTopic t (Some m)) => HSent t (hw_value m w) | _ => HDone end)
    | HMove a b => match aget a (hw_pubs w) with
                   | Some (d, h) => (hw_give b d h (hw_give a d HasNothing w), HDone)
                   | None => (w, HDone)
                   end
    | HAssign a b => match aget b (hw_pubs w) with
                     | Some (d, h) => (hw_give a d h (hw_give b d HasNothing w), HDone)
                     | None => (w, HDone)
                     end
    | HDelete k => (HWorld (adel k (hw_pubs w)) (hw_msgs w) (hw_log w), HDone)
    end.
  (** Programs that use only objects that exist, and messages only of publishers that have one (or protobuf messages of
      their own). *)
  Definition in_use (m : nat) (w : hworld) : bool :=
    existsb (fun kv => match snd (snd kv) with HasTopic _ (Some m') => Nat.eqb m m' | _ => false end) (hw_pubs w).
  Definition sane_act (w : hworld) (a : hact) : bool :=
    match a with
    | HCapnp k _ _ | HName k _ _ | HDyn k _ None => negb (amem k (hw_pubs w))
    | HMessage _ _ => true
    | HDyn k _ (Some m) => negb (amem k (hw_pubs w)) && Nat.ltb m (length (hw_msgs w)) && hw_shared m w
    | HEdit k _ | HSend k => match hw_holds k w with Some _ => true | None => false end
    | HWrite m _ => Nat.ltb m (length (hw_msgs w)) && (hw_shared m w || in_use m w)
    | HMove a b => amem a (hw_pubs w) && negb (amem b (hw_pubs w))
    | HAssign a b =>
        negb (Nat.eqb a b) &&
        match aget a (hw_pubs w), aget b (hw_pubs w) with Some (d, _), Some (d', _) => eqb d d' | _, _ => false end
    | HDelete k => amem k (hw_pubs w)
    end.
  Fixpoint hw_run (w : hworld) (l : list hact) : hworld * list hout :=
    match l with
    | [] => (w, [])
    | a :: l' => let (w1, o) := hw_step w a in let (w2, os) := hw_run w1 l' in (w2, o :: os)
    end.
  Fixpoint sane (w : hworld) (l : list hact) : bool :=
    match l with
    | [] => true
    | a :: l' => sane_act w a && sane (fst (hw_step w a)) l'
    end.
End Expect.

(** Example data. *)
Definition tT : text := str "T".
Definition tU : text := str "U".
Definition tP : text := str "P".
Definition gen_p (t : text) : bool := eqb t tP.
(** A parser for messages of one word: the first byte; the rest is counted in words. *)
Definition word_parse (b : list Z) : option (text * nat) :=
  match b with [] => None | x :: _ => Some ([x], length b / 8 - 1) end.
Definition word_of (x : Z) : list Z := x :: repeat 0%Z 7.
Definition mixed_program : list hact :=
  [HCapnp 1 tT tU; HEdit 1 [5%Z]; HMessage tP [6%Z]; HDyn 2 tU (Some 1); HDyn 3 tT (Some 1); HWrite 1 [7%Z]; HSend 2; HSend 3; HSend 1;
   HMove 1 4; HSend 4; HEdit 4 [8%Z]; HSend 4; HName 5 tP tP; HName 6 tP tU; HSend 5; HAssign 5 2; HSend 5; HEdit 5 [9%Z]; HSend 3;
   HDelete 4; HDelete 1].
