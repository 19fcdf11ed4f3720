(** * The slots of the task editor as a whole. *)
From Coq Require Import List Arith Lia Reals Lra.
From Verif Require Import PyBase Gui GuiProofs.
Import ListNotations.
Local Open Scope R_scope.

Lemma slots_total rows cols margin : (1 <= rows)%nat -> (1 <= cols)%nat -> 0 < margin -> 2 * margin < 1 / INR rows -> 2 * margin < 1 / INR cols ->
  exists ss, create_layout_slots rows cols margin = Ok ss /\ length ss = rows /\ Forall (fun row => length row = cols) ss /\
  (forall i j, (i < rows)%nat -> (j < cols)%nat -> exists s, slot_at ss i j = Some s /\ good_slot s) /\
  (forall i j i' j' s s', slot_at ss i j = Some s -> slot_at ss i' j' = Some s' -> (i, j) <> (i', j') -> apart s s').
Proof.
  intros Hr Hc Hm H1 H2. destruct (slots_form rows cols margin Hr Hc) as (ss & E & _). exists ss. split; [exact E|].
  pose proof (slots_good rows cols margin ss Hr Hc Hm H1 H2 E) as G. destruct rows as [|rows]; [lia|]. destruct cols as [|cols]; [lia|].
  unfold create_layout_slots in E. assert (E' := f_equal (fun r => match r with Ok l => l | _ => [] end) E). cbv beta iota zeta in E'.
  split; [|split; [|exact G]]; rewrite <- E'.
  - rewrite map_length, seq_length. reflexivity.
  - apply Forall_forall. intros row I. apply in_map_iff in I. destruct I as (i & <- & _). rewrite map_length, seq_length. reflexivity.
Qed.
Lemma slots_cells rows cols margin ss i j l b w h : create_layout_slots rows cols margin = Ok ss -> slot_at ss i j = Some (l, b, w, h) ->
  (i < rows)%nat /\ (j < cols)%nat /\ l = INR j / INR cols + margin /\ l + w = INR (S j) / INR cols - margin /\
  b = INR i / INR rows + margin /\ b + h = INR (S i) / INR rows - margin.
Proof.
  intros E H. destruct rows as [|rows]; [discriminate|]. destruct cols as [|cols]; [discriminate|].
  destruct (slots_form (S rows) (S cols) margin) as (ss' & E' & F); [lia|lia|]. rewrite E in E'. injection E' as <-. rewrite F in H.
  destruct (Nat.ltb_spec i (S rows)) as [Hi|]; [|discriminate]. destruct (Nat.ltb_spec j (S cols)) as [Hj|]; [|discriminate].
  assert (INR (S rows) <> 0) by (apply not_0_INR; lia). assert (INR (S cols) <> 0) by (apply not_0_INR; lia).
  clear F E. rewrite (S_INR i), (S_INR j). remember (INR (S cols)) as c eqn:Ec. remember (INR (S rows)) as r eqn:Er. injection H as <- <- <- <-.
  split; [exact Hi|]. split; [exact Hj|]. replace 1.0 with 1 by lra. split; [field; auto|]. split; [field; auto|]. split; field; auto.
Qed.
Lemma slots_none rows cols margin : rows = 0%nat \/ cols = 0%nat -> create_layout_slots rows cols margin = Raise ZeroDivisionError.
Proof. intros [->| ->]; [reflexivity|]. destruct rows; reflexivity. Qed.
