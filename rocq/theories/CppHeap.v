(** * Proofs about graph.cpp: the libstdc++ heap only permutes its elements,
    whatever the distances are and however they changed. *)
From Coq Require Import List Arith Lia Bool ZArith Permutation FinFun.
From Verif Require Import PyBase Cost GraphCommon GraphProofs CppGraph CppSearch.
Import ListNotations.
Local Open Scope nat_scope.

Section H.
Context {K : CostStruct} {F : Type}.

Definition transp (i j k : nat) : nat := if Nat.eqb k i then j else if Nat.eqb k j then i else k.
Lemma transp_invol i j k : transp i j (transp i j k) = k.
Proof.
  unfold transp. destruct (Nat.eqb_spec k i) as [->|H1].
  - destruct (Nat.eqb_spec j i); [auto|]. rewrite Nat.eqb_refl. reflexivity.
  - destruct (Nat.eqb_spec k j) as [->|H2]; [rewrite Nat.eqb_refl; reflexivity|].
    destruct (Nat.eqb_spec k i); [congruence|]. destruct (Nat.eqb_spec k j); congruence.
Qed.

Lemma swap_length h i j : length (swap h i j) = length h.
Proof. unfold swap. rewrite !upd_length. reflexivity. Qed.
Lemma swap_perm h i j : i < length h -> j < length h -> Permutation h (swap h i j).
Proof.
  intros Hi Hj. apply Permutation_nth_error. split; [symmetry; apply swap_length|].
  exists (transp i j). split.
  - intros x y H. rewrite <- (transp_invol i j x), <- (transp_invol i j y). congruence.
  - assert (Hn : forall k, k < length h -> nth_error h k = Some (hnth h k)).
    { intros k Hk. unfold hnth. apply nth_error_nth'. auto. }
    intros k. unfold swap. rewrite nth_error_upd, upd_length. unfold transp.
    destruct (Nat.eq_dec j k) as [<-|Hjk].
    + destruct (lt_dec j (length h)); [|lia].
      destruct (Nat.eqb_spec j i) as [->|]; [rewrite Hn; auto|]. rewrite Nat.eqb_refl, Hn; auto.
    + rewrite nth_error_upd. destruct (Nat.eq_dec i k) as [<-|Hik].
      * destruct (lt_dec i (length h)); [|lia]. rewrite Nat.eqb_refl, Hn; auto.
      * destruct (Nat.eqb_spec k i), (Nat.eqb_spec k j); try congruence; auto.
Qed.

Lemma sift_up_perm (a : narr K (list F)) : forall fuel h hole, hole < length h -> Permutation h (sift_up fuel a h hole).
Proof.
  induction fuel as [|fuel IH]; intros h hole Hh; cbn [sift_up]; auto.
  destruct (Nat.ltb_spec 0 hole); auto. cbv zeta. destruct (clt _ _); auto.
  assert (Hp : (hole - 1) / 2 < length h) by (apply Nat.div_lt_upper_bound; lia).
  etransitivity; [apply (swap_perm h hole ((hole - 1) / 2)); auto|]. apply IH. rewrite swap_length. auto.
Qed.

Lemma sift_down_perm (a : narr K (list F)) : forall fuel h hole, hole < length h ->
  Permutation h (fst (sift_down fuel a h hole)) /\ snd (sift_down fuel a h hole) < length h.
Proof.
  induction fuel as [|fuel IH]; intros h hole Hh; cbn [sift_down]; auto. cbv zeta.
  destruct (Nat.ltb_spec hole ((length h - 1) / 2)) as [Hlt|Hge].
  - set (c := if clt _ _ then _ else _).
    assert (Hc : c < length h).
    { pose proof (Nat.mul_div_le (length h - 1) 2). unfold c. destruct (clt _ _); lia. }
    destruct (IH (swap h hole c) c) as [H1 H2]; [rewrite swap_length; auto|]. rewrite swap_length in H2.
    split; auto. etransitivity; [apply (swap_perm h hole c); auto|auto].
  - destruct (Nat.even (length h) && Nat.eqb hole ((length h - 2) / 2) && Nat.ltb 1 (length h)) eqn:E; [|simpl; auto].
    apply andb_true_iff in E. destruct E as [E E3]. apply andb_true_iff in E. destruct E as [E1 E2].
    apply Nat.eqb_eq in E2. apply Nat.ltb_lt in E3. simpl fst. simpl snd.
    pose proof (Nat.mul_div_le (length h - 2) 2).
    assert (Hc : hole + (hole + 1 + 0) + 1 - 1 < length h) by lia.
    split; [apply swap_perm; lia|lia].
Qed.

Lemma stl_queue_ok : pq_ok (@stl_queue K F).
Proof.
  constructor; cbn [pq_pop pq_push stl_queue].
  - intros a [|x rest]; cbn [heap_pop]; [split; auto|]. destruct (rev rest); [split; discriminate|].
    cbv zeta. destruct (sift_down (length (r :: removelast rest)) a (r :: removelast rest) 0). split; discriminate.
  - intros a [|x rest] r q' H; cbn [heap_pop] in H; [discriminate|].
    destruct (rev rest) as [|y l] eqn:E.
    + injection H as <- <-. apply (f_equal (@rev _)) in E. rewrite rev_involutive in E. subst rest. auto.
    + set (h1 := y :: removelast rest) in H.
      destruct (sift_down_perm a (length h1) h1 0) as [H1 H2]; [simpl; lia|].
      destruct (sift_down (length h1) a h1 0) as [h2 hole] eqn:Es. cbn [fst snd] in H1, H2.
      assert (Hx : x = r) by congruence. assert (Hq : sift_up (length h1) a h2 hole = q') by congruence.
      rewrite <- Hx, <- Hq. clear H Hx Hq.
      constructor. apply (f_equal (@rev _)) in E. rewrite rev_involutive in E. cbn [rev] in E.
      rewrite (Permutation_length H1) in H2.
      etransitivity; [|apply (sift_up_perm a _ h2 hole H2)]. rewrite <- H1. unfold h1.
      rewrite E, removelast_last. symmetry. apply Permutation_cons_append.
  - intros a q r. unfold heap_push. rewrite <- sift_up_perm by (rewrite app_length; simpl; lia).
    symmetry. apply Permutation_cons_append.
Qed.
End H.
