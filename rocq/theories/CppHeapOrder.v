(** * Proofs about graph.cpp: the libstdc++ heap pops a minimum as long as the
    distances of the queued nodes do not change. *)
From Coq Require Import List Arith Lia Bool ZArith ZifyNat Permutation.
From Verif Require Import PyBase Cost GraphCommon GraphProofs CppGraph CppSearch CppHeap.
Import ListNotations.
Local Open Scope nat_scope.
Ltac Zify.zify_post_hook ::= Z.div_mod_to_equations.

Section O.
Context {K : CostStruct} {F : Type}.
Context (a : narr K (list F)).
Implicit Types h : list ref.

Definition key h (i : nat) : K := dist_of a (hnth h i).
Definition parent (i : nat) : nat := (i - 1) / 2.
(** heap order: no node is nearer than its parent *)
Definition heap h : Prop := forall i, 0 < i < length h -> cle (key h (parent i)) (key h i).

Lemma hnth_upd h i x k : i < length h -> hnth (upd h i x) k = if Nat.eqb k i then x else hnth h k.
Proof.
  intros Hi. unfold hnth. destruct (Nat.lt_ge_cases k (length h)) as [Hk|Hk].
  - assert (E : nth_error (upd h i x) k = Some (if Nat.eqb k i then x else nth k h (0, 0))).
    { rewrite nth_error_upd. destruct (Nat.eq_dec i k) as [<-|Hik]; [rewrite Nat.eqb_refl; destruct (lt_dec i (length h)); [reflexivity|lia]|].
      destruct (Nat.eqb_spec k i); [congruence|]. apply nth_error_nth'. auto. }
    apply nth_error_nth with (d := (0, 0)) in E. exact E.
  - rewrite !nth_overflow by (rewrite ?upd_length; lia). destruct (Nat.eqb_spec k i); [lia|reflexivity].
Qed.
Lemma key_swap h i j k : i < length h -> j < length h -> key (swap h i j) k = if Nat.eqb k j then key h i else if Nat.eqb k i then key h j else key h k.
Proof.
  intros Hi Hj. unfold key, swap. rewrite hnth_upd by (rewrite upd_length; auto). destruct (Nat.eqb_spec k j); auto. rewrite hnth_upd by auto. destruct (Nat.eqb_spec k i); auto.
Qed.

(** only the node at the hole may be nearer than its parent *)
Definition up_inv h hole : Prop :=
  (forall i, 0 < i < length h -> i <> hole -> cle (key h (parent i)) (key h i)) /\
  (0 < hole -> forall c, 0 < c < length h -> parent c = hole -> cle (key h (parent hole)) (key h c)).
Lemma sift_up_heap : forall fuel h hole, hole < length h -> hole < fuel -> up_inv h hole -> heap (sift_up fuel a h hole).
Proof.
  induction fuel as [|fuel IH]; intros h hole Hh Hf [I1 I2]; [lia|]. cbn [sift_up]. destruct (Nat.ltb_spec 0 hole) as [Hp|Hp].
  2: { intros i Hi. apply I1; auto. lia. }
  cbv zeta. fold (parent hole). fold (key h hole) (key h (parent hole)).
  assert (Pl : parent hole < hole) by (unfold parent; lia). destruct (clt (key h hole) (key h (parent hole))) eqn:E.
  - apply IH; [rewrite swap_length; lia|lia|]. split.
    + intros i Hi Hne. rewrite swap_length in Hi. rewrite !key_swap by lia.
      destruct (Nat.eqb_spec i (parent hole)) as [|_]; [congruence|]. destruct (Nat.eqb_spec i hole) as [->|Hn].
      * rewrite Nat.eqb_refl. apply clt_cle. exact E.
      * destruct (Nat.eqb_spec (parent i) (parent hole)) as [Ep|Ep].
        -- eapply cle_trans; [apply clt_cle; exact E|]. rewrite <- Ep. apply I1; auto.
        -- destruct (Nat.eqb_spec (parent i) hole) as [Eh|Eh]; [|apply I1; auto]. apply I2; auto.
    + intros Hpp c Hc Ec. rewrite swap_length in Hc. rewrite !key_swap by lia.
      assert (P2 : parent (parent hole) < parent hole) by (unfold parent in *; lia).
      destruct (Nat.eqb_spec (parent (parent hole)) (parent hole)); [lia|]. destruct (Nat.eqb_spec (parent (parent hole)) hole); [lia|].
      destruct (Nat.eqb_spec c (parent hole)); [unfold parent in *; lia|]. destruct (Nat.eqb_spec c hole) as [->|Hn].
      * apply I1; lia.
      * eapply cle_trans; [apply (I1 (parent hole)); lia|]. rewrite <- Ec. apply I1; auto.
  - intros i Hi. destruct (Nat.eq_dec i hole) as [->|]; [exact E|]. apply I1; auto.
Qed.

(** the node at the hole is unrelated to its neighbours *)
Definition down_inv h hole : Prop :=
  (forall i, 0 < i < length h -> i <> hole -> parent i <> hole -> cle (key h (parent i)) (key h i)) /\
  (0 < hole -> forall c, 0 < c < length h -> parent c = hole -> cle (key h (parent hole)) (key h c)).
Lemma down_step h hole c : hole < length h -> down_inv h hole -> 0 < c < length h -> parent c = hole ->
  (forall s, 0 < s < length h -> parent s = hole -> cle (key h c) (key h s)) -> down_inv (swap h hole c) c.
Proof.
  intros Hh [I1 I2] Hc Pc Hs. split.
  - intros i Hi Hn Hnp. rewrite swap_length in Hi. rewrite !key_swap by lia. destruct (Nat.eqb_spec (parent i) c); [congruence|]. destruct (Nat.eqb_spec i c); [congruence|].
    destruct (Nat.eqb_spec i hole) as [->|Hih].
    + destruct (Nat.eqb_spec (parent hole) hole); [unfold parent in *; lia|]. apply I2; auto. lia.
    + destruct (Nat.eqb_spec (parent i) hole) as [Ep|Ep]; [apply Hs; auto|]. apply I1; auto.
  - intros _ g Hg Eg. rewrite swap_length in Hg. rewrite !key_swap by lia. rewrite Pc. destruct (Nat.eqb_spec hole c); [unfold parent in *; lia|]. rewrite Nat.eqb_refl.
    destruct (Nat.eqb_spec g c); [unfold parent in *; lia|]. destruct (Nat.eqb_spec g hole); [unfold parent in *; lia|].
    rewrite <- Eg at 1. apply I1; auto. unfold parent in *; lia.
Qed.
Lemma sift_down_inv : forall fuel h hole, hole < length h -> length h <= hole + fuel -> down_inv h hole ->
  let '(h2, hole2) := sift_down fuel a h hole in down_inv h2 hole2 /\ length h2 = length h /\ hole2 < length h /\ length h <= 2 * hole2 + 1.
Proof.
  induction fuel as [|fuel IH]; intros h hole Hh Hf I; [lia|]. cbn [sift_down]. cbv zeta. destruct (Nat.ltb_spec hole ((length h - 1) / 2)) as [Hlt|Hge].
  - set (c := if clt _ _ then _ else _).
    assert (Hc : (c = 2 * hole + 1 \/ c = 2 * hole + 2) /\ 2 * hole + 2 < length h) by (unfold c; destruct (clt _ _); lia).
    assert (Pc : parent c = hole) by (unfold parent; lia).
    assert (Hs : forall s, 0 < s < length h -> parent s = hole -> cle (key h c) (key h s)).
    { intros s Hs Ps. assert (Cs : s = 2 * hole + 1 \/ s = 2 * hole + 2) by (unfold parent in Ps; lia). unfold c in *. clear c. fold (key h (2 * (hole + 1) - 1)) (key h (2 * (hole + 1))) in *.
      replace (2 * (hole + 1) - 1) with (2 * hole + 1) in * by lia. replace (2 * (hole + 1)) with (2 * hole + 2) in * by lia.
      destruct (clt (key h (2 * hole + 1)) (key h (2 * hole + 2))) eqn:E; destruct Cs as [->| ->]; try apply cle_refl; [apply clt_cle; exact E|exact E]. }
    specialize (IH (swap h hole c) c). rewrite swap_length in IH. apply IH; [lia|lia|]. apply down_step; auto; lia.
  - destruct (Nat.even (length h)) eqn:Ev; cbn [andb].
    + apply Nat.even_spec in Ev. destruct Ev as [m Em]. destruct (Nat.eqb_spec hole ((length h - 2) / 2)) as [Eh|Eh]; cbn [andb].
      * destruct (Nat.ltb_spec 1 (length h)); [|lia]. split; [|split; [apply swap_length|split; lia]]. apply down_step; auto; try lia; [unfold parent; lia|].
        intros s Hs Ps. replace s with (2 * (hole + 1) - 1) by (unfold parent in Ps; lia). apply cle_refl.
      * split; auto. split; auto. split; [auto|]. lia.
    + rewrite <- Nat.negb_odd in Ev. destruct (Nat.odd (length h)) eqn:Od; [|discriminate]. apply Nat.odd_spec in Od. destruct Od as [m Em]. split; auto. split; auto. split; [auto|]. lia.
Qed.
Lemma down_up h hole : down_inv h hole -> length h <= 2 * hole + 1 -> up_inv h hole.
Proof. intros [I1 I2] L. split; [|exact I2]. intros i Hi Hn. apply I1; auto. unfold parent. lia. Qed.

Lemma heap_min h : heap h -> forall i, i < length h -> cle (key h 0) (key h i).
Proof.
  intros H i. induction i as [i IH] using lt_wf_ind. intros Hi. destruct (Nat.eq_dec i 0) as [->|]; [apply cle_refl|].
  eapply cle_trans; [apply (IH (parent i)); unfold parent; lia|]. apply H. lia.
Qed.
Lemma heap_nil : heap []. Proof. intros i Hi. cbn in Hi. lia. Qed.
Lemma hnth_app1 h x i : i < length h -> hnth (h ++ [x]) i = hnth h i.
Proof. intros H. unfold hnth. apply app_nth1. auto. Qed.
Lemma push_heap h r : heap h -> heap (heap_push a h r).
Proof.
  intros H. unfold heap_push. apply sift_up_heap; [rewrite app_length; cbn; lia|lia|]. split.
  - intros i Hi Hn. rewrite app_length in Hi. cbn [length] in Hi. unfold key. rewrite !hnth_app1 by (unfold parent; lia). apply H. lia.
  - intros _ c Hc Ec. rewrite app_length in Hc. cbn [length] in Hc. unfold parent in Ec. lia.
Qed.
Lemma pop_heap h r h' : heap h -> heap_pop a h = Some (r, h') -> heap h' /\ forall x, In x h -> cle (dist_of a r) (dist_of a x).
Proof.
  intros H E. assert (M : forall x, In x h -> cle (key h 0) (dist_of a x)).
  { intros x Ix. apply (In_nth _ _ (0, 0)) in Ix. destruct Ix as (i & Hi & <-). apply (heap_min h H i Hi). }
  destruct h as [|top rest]; [discriminate|]. cbn [heap_pop] in E. destruct (rev rest) as [|last l] eqn:R.
  { injection E as <- <-. split; [apply heap_nil|exact M]. }
  apply (f_equal (@rev _)) in R. rewrite rev_involutive in R. cbn [rev] in R. set (q := rev l) in *. rewrite R, removelast_last in E. cbv zeta in E.
  pose proof (sift_down_inv (length (last :: q)) (last :: q) 0 ltac:(cbn; lia) ltac:(lia)) as D.
  destruct (sift_down (length (last :: q)) a (last :: q) 0) as [h2 hole]. assert (Eh : sift_up (length (last :: q)) a h2 hole = h') by congruence. assert (top = r) by congruence. subst r. rewrite <- Eh. split; [|exact M].
  destruct D as (I & L & Hh & Hl).
  { split; [|lia]. intros i Hi Hn Hp. assert (Eq : forall k, 0 < k -> k < length (last :: q) -> key (last :: q) k = key (top :: rest) k).
    { intros k K0 K1. unfold key, hnth. destruct k as [|k]; [lia|]. cbn [nth]. rewrite R. cbn [length] in K1. rewrite app_nth1 by lia. reflexivity. }
    rewrite !Eq by (unfold parent in *; lia). apply H. rewrite R. cbn [length] in *. rewrite app_length. lia. }
  apply sift_up_heap; [lia|lia|]. apply down_up; [exact I|lia].
Qed.
(** every sequence of pushes and pops *)
Inductive hop : Type := Push (r : ref) | Pop.
Definition heap_step (h : list ref) (o : hop) : list ref :=
  match o with Push r => heap_push a h r | Pop => match heap_pop a h with Some (_, h') => h' | None => h end end.
Lemma heap_steps : forall os h, heap h -> heap (fold_left heap_step os h).
Proof.
  induction os as [|o os IH]; intros h H; cbn [fold_left]; auto. apply IH. destruct o as [r|]; cbn [heap_step]; [apply push_heap; auto|].
  destruct (heap_pop a h) as [[r h']|] eqn:E; auto. eapply pop_heap; eauto.
Qed.
Lemma heap_pops_min os r h' : heap_pop a (fold_left heap_step os []) = Some (r, h') ->
  forall x, In x (fold_left heap_step os []) -> cle (dist_of a r) (dist_of a x).
Proof. intros E. apply (pop_heap _ _ _ (heap_steps os [] heap_nil) E). Qed.
End O.

(** three nodes with the given distances *)
Definition three (x y z : Z) : narr ZCost (list Z) :=
  [[mkNode 0 0 [0%Z] (Some x : ZCost) PDummy false; mkNode 0 1 [0%Z] (Some y : ZCost) PDummy false; mkNode 0 2 [0%Z] (Some z : ZCost) PDummy false]].
Definition push_all (a : narr ZCost (list Z)) : list ref := fold_left (heap_step a) [Push (0, 0); Push (0, 1); Push (0, 2)] [].
Lemma changed_distance : exists r h x, heap_pop (three 1 2 0) (push_all (three 1 2 3)) = Some (r, h) /\ In x (push_all (three 1 2 3)) /\
  clt (dist_of (three 1 2 0) x) (dist_of (three 1 2 0) r) = true.
Proof. exists (0, 0). eexists. exists (0, 2). split; [vm_compute; reflexivity|]. split; [vm_compute; auto|vm_compute; reflexivity]. Qed.
