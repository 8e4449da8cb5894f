(** Vocabulary for the C interface. *)
From Verif Require Import Base Sample RdModel CapModel.

(** What block b holds, if it is live. *)
Definition content (b : nat) (h : heap) : option (list cell) := aget b (hp_blocks h).
(** Blocks are numbered in the order they were allocated. *)
Definition numbered (h : heap) : Prop := forall b, content b h <> None -> b < hp_next h.
(** The bytes of a message, as cells. *)
Definition bytes (s : list Z) : list cell := map Byte s.
(** The eight cells of a pointer to b. *)
Definition pointer (b : nat) : list cell :=
  [Part b 0; Part b 1; Part b 2; Part b 3; Part b 4; Part b 5; Part b 6; Part b 7].
(** The cells with the first ones replaced by new. *)
Definition over (new old : list cell) : list cell := new ++ skipn (length new) old.
Definition size (s : list Z) : Z := Z.of_nat (length s).
(** Not empty. *)
Definition filled (s : list Z) : bool := match s with [] => false | _ => true end.
Definition two_gib : Z := 2147483648.
(** Nothing changed, except possibly in the blocks of bs. *)
Definition same_except (bs : list nat) (h h' : heap) : Prop := forall b, ~ In b bs -> content b h' = content b h.

(** The subscriber has a message m waiting. *)
Definition waiting (rd : reader) (m : list Z) : Prop :=
  rd_created rd = true /\ rd_received rd = true /\ rd_buf rd = m.
Definition nothing_waiting (rd : reader) : Prop := rd_created rd = false \/ rd_received rd = false.
(** A subscriber without callback to which m arrived. *)
Definition rd_with (m : list Z) : reader := set_buf rd_new m 7 true.

(** The thread is inside a callback. *)
Definition busy (t : nat) (g : cguard) : Prop := exists st, aget t (cg_in g) = Some st /\ st <> [].
(** The thread that takes a step. *)
Definition stepper (s : cstep) : nat := match s with SEnter t _ => t | SWrite t _ => t | SLeave t => t end.
Definition leaves (t : nat) (s : cstep) : Prop := s = SLeave t.

(** For the examples: block 0 is a buffer of 12 cells, block 1 one of 3. *)
Definition heap2 : heap := Heap [(0, repeat Raw 12); (1, repeat Raw 3)] 2.
