(** * Proofs about graph.cpp: run_dijkstra with the libstdc++ heap on two columns. *)
From Coq Require Import List Arith Lia Bool ZArith ZifyNat Permutation Reals Lra.
From Verif Require Import PyBase Cost SpecPath GraphCommon GraphProofs GraphWalks CppGraph CppGraphProofs CppSearch CppHeap CppMain CppExamples CppFinal.
Import ListNotations.
Local Open Scope nat_scope.
Ltac Zify.zify_post_hook ::= Z.div_mod_to_equations.

(** ** The heap keeps the elements of least distance above the others, even when
    the distances of the others changed since they were pushed *)
Section Low.
Context {K : CostStruct} {F : Type} (low : ref -> bool).
Implicit Types h : list ref.
Definition keys (a : narr K (list F)) : Prop :=
  (forall r, low r = true -> dist_of a r = czero) /\ (forall r, low r = false -> clt czero (dist_of a r) = true).
Definition lh h (i : nat) : bool := low (hnth h i).
Definition par (i : nat) : nat := (i - 1) / 2.
Definition ble (x y : bool) : Prop := y = true -> x = true.
(** no low element under another one *)
Definition closed h : Prop := forall i, 0 < i < length h -> ble (lh h (par i)) (lh h i).

Context (a : narr K (list F)) (HK : keys a).
Lemma lt_ble x y : clt (dist_of a x) (dist_of a y) = true -> ble (low x) (low y).
Proof.
  intros E L. destruct (low x) eqn:Lx; auto. destruct HK as [H1 H2]. specialize (H1 _ L). specialize (H2 _ Lx). rewrite H1 in E.
  pose proof (clt_trans K _ _ _ H2 E) as B. rewrite clt_irrefl in B. discriminate.
Qed.
Lemma nlt_ble x y : clt (dist_of a x) (dist_of a y) = false -> ble (low y) (low x).
Proof.
  intros E L. destruct (low y) eqn:Ly; auto. destruct HK as [H1 H2]. rewrite (H1 _ L), (H2 _ Ly) in E. discriminate.
Qed.
Lemma ble_refl x : ble x x. Proof. intros H; exact H. Qed.
Lemma ble_trans x y z : ble x y -> ble y z -> ble x z. Proof. intros A B H. apply A, B, H. Qed.

Lemma hnth_upd h i x k : i < length h -> hnth (upd h i x) k = if Nat.eqb k i then x else hnth h k.
Proof.
  intros Hi. unfold hnth. destruct (Nat.lt_ge_cases k (length h)) as [Hk|Hk].
  - assert (E : nth_error (upd h i x) k = Some (if Nat.eqb k i then x else nth k h (0, 0))).
    { rewrite nth_error_upd. destruct (Nat.eq_dec i k) as [<-|Hik]; [rewrite Nat.eqb_refl; destruct (lt_dec i (length h)); [reflexivity|lia]|].
      destruct (Nat.eqb_spec k i); [congruence|]. apply nth_error_nth'. auto. }
    apply nth_error_nth with (d := (0, 0)) in E. exact E.
  - rewrite !nth_overflow by (rewrite ?upd_length; lia). destruct (Nat.eqb_spec k i); [lia|reflexivity].
Qed.
Lemma lh_swap h i j k : i < length h -> j < length h -> lh (swap h i j) k = if Nat.eqb k j then lh h i else if Nat.eqb k i then lh h j else lh h k.
Proof.
  intros Hi Hj. unfold lh, swap. rewrite hnth_upd by (rewrite upd_length; auto). destruct (Nat.eqb_spec k j); auto. rewrite hnth_upd by auto. destruct (Nat.eqb_spec k i); auto.
Qed.
Definition up_inv h hole : Prop :=
  (forall i, 0 < i < length h -> i <> hole -> ble (lh h (par i)) (lh h i)) /\
  (0 < hole -> forall c, 0 < c < length h -> par c = hole -> ble (lh h (par hole)) (lh h c)).
Lemma sift_up_closed : forall fuel h hole, hole < length h -> hole < fuel -> up_inv h hole -> closed (sift_up fuel a h hole).
Proof.
  induction fuel as [|fuel IH]; intros h hole Hh Hf [I1 I2]; [lia|]. cbn [sift_up]. destruct (Nat.ltb_spec 0 hole) as [Hp|Hp].
  2: { intros i Hi. apply I1; auto. lia. }
  cbv zeta. fold (par hole).
  assert (Pl : par hole < hole) by (unfold par; lia). destruct (clt (dist_of a (hnth h hole)) (dist_of a (hnth h (par hole)))) eqn:E.
  - assert (E' : ble (lh h hole) (lh h (par hole))) by (apply lt_ble; exact E). apply IH; [rewrite swap_length; lia|lia|]. split.
    + intros i Hi Hne. rewrite swap_length in Hi. rewrite !lh_swap by lia.
      destruct (Nat.eqb_spec i (par hole)) as [|_]; [congruence|]. destruct (Nat.eqb_spec i hole) as [->|Hn].
      * rewrite Nat.eqb_refl. exact E'.
      * destruct (Nat.eqb_spec (par i) (par hole)) as [Ep|Ep].
        -- eapply ble_trans; [exact E'|]. rewrite <- Ep. apply I1; auto.
        -- destruct (Nat.eqb_spec (par i) hole) as [Eh|Eh]; [|apply I1; auto]. apply I2; auto.
    + intros Hpp c Hc Ec. rewrite swap_length in Hc. rewrite !lh_swap by lia.
      assert (P2 : par (par hole) < par hole) by (unfold par in *; lia).
      destruct (Nat.eqb_spec (par (par hole)) (par hole)); [lia|]. destruct (Nat.eqb_spec (par (par hole)) hole); [lia|].
      destruct (Nat.eqb_spec c (par hole)); [unfold par in *; lia|]. destruct (Nat.eqb_spec c hole) as [->|Hn].
      * apply I1; lia.
      * eapply ble_trans; [apply (I1 (par hole)); lia|]. rewrite <- Ec. apply I1; auto.
  - intros i Hi. destruct (Nat.eq_dec i hole) as [->|]; [apply nlt_ble; exact E|]. apply I1; auto.
Qed.
Definition down_inv h hole : Prop :=
  (forall i, 0 < i < length h -> i <> hole -> par i <> hole -> ble (lh h (par i)) (lh h i)) /\
  (0 < hole -> forall c, 0 < c < length h -> par c = hole -> ble (lh h (par hole)) (lh h c)).
Lemma down_step h hole c : hole < length h -> down_inv h hole -> 0 < c < length h -> par c = hole ->
  (forall s, 0 < s < length h -> par s = hole -> ble (lh h c) (lh h s)) -> down_inv (swap h hole c) c.
Proof.
  intros Hh [I1 I2] Hc Pc Hs. split.
  - intros i Hi Hn Hnp. rewrite swap_length in Hi. rewrite !lh_swap by lia. destruct (Nat.eqb_spec (par i) c); [congruence|]. destruct (Nat.eqb_spec i c); [congruence|].
    destruct (Nat.eqb_spec i hole) as [->|Hih].
    + destruct (Nat.eqb_spec (par hole) hole); [unfold par in *; lia|]. apply I2; auto. lia.
    + destruct (Nat.eqb_spec (par i) hole) as [Ep|Ep]; [apply Hs; auto|]. apply I1; auto.
  - intros _ g Hg Eg. rewrite swap_length in Hg. rewrite !lh_swap by lia. rewrite Pc. destruct (Nat.eqb_spec hole c); [unfold par in *; lia|]. rewrite Nat.eqb_refl.
    destruct (Nat.eqb_spec g c); [unfold par in *; lia|]. destruct (Nat.eqb_spec g hole); [unfold par in *; lia|].
    rewrite <- Eg at 1. apply I1; auto. unfold par in *; lia.
Qed.
Lemma sift_down_inv : forall fuel h hole, hole < length h -> length h <= hole + fuel -> down_inv h hole ->
  let '(h2, hole2) := sift_down fuel a h hole in down_inv h2 hole2 /\ length h2 = length h /\ hole2 < length h /\ length h <= 2 * hole2 + 1.
Proof.
  induction fuel as [|fuel IH]; intros h hole Hh Hf I; [lia|]. cbn [sift_down]. cbv zeta. destruct (Nat.ltb_spec hole ((length h - 1) / 2)) as [Hlt|Hge].
  - set (c := if clt _ _ then _ else _).
    assert (Hc : (c = 2 * hole + 1 \/ c = 2 * hole + 2) /\ 2 * hole + 2 < length h) by (unfold c; destruct (clt _ _); lia).
    assert (Pc : par c = hole) by (unfold par; lia).
    assert (Hs : forall s, 0 < s < length h -> par s = hole -> ble (lh h c) (lh h s)).
    { intros s Hs Ps. assert (Cs : s = 2 * hole + 1 \/ s = 2 * hole + 2) by (unfold par in Ps; lia). unfold c in *. clear c.
      replace (2 * (hole + 1) - 1) with (2 * hole + 1) in * by lia. replace (2 * (hole + 1)) with (2 * hole + 2) in * by lia.
      destruct (clt (dist_of a (hnth h (2 * hole + 1))) (dist_of a (hnth h (2 * hole + 2)))) eqn:E; destruct Cs as [->| ->]; try apply ble_refl; [apply lt_ble; exact E|apply nlt_ble; exact E]. }
    specialize (IH (swap h hole c) c). rewrite swap_length in IH. apply IH; [lia|lia|]. apply down_step; auto; lia.
  - destruct (Nat.even (length h)) eqn:Ev; cbn [andb].
    + apply Nat.even_spec in Ev. destruct Ev as [m Em]. destruct (Nat.eqb_spec hole ((length h - 2) / 2)) as [Eh|Eh]; cbn [andb].
      * destruct (Nat.ltb_spec 1 (length h)); [|lia]. split; [|split; [apply swap_length|split; lia]]. apply down_step; auto; try lia; [unfold par; lia|].
        intros s Hs Ps. replace s with (2 * (hole + 1) - 1) by (unfold par in Ps; lia). apply ble_refl.
      * split; auto. split; auto. split; [auto|]. lia.
    + rewrite <- Nat.negb_odd in Ev. destruct (Nat.odd (length h)) eqn:Od; [|discriminate]. apply Nat.odd_spec in Od. destruct Od as [m Em]. split; auto. split; auto. split; [auto|]. lia.
Qed.
Lemma down_up h hole : down_inv h hole -> length h <= 2 * hole + 1 -> up_inv h hole.
Proof. intros [I1 I2] L. split; [|exact I2]. intros i Hi Hn. apply I1; auto. unfold par. lia. Qed.
Lemma closed_top h : closed h -> forall i, i < length h -> ble (lh h 0) (lh h i).
Proof.
  intros H i. induction i as [i IH] using lt_wf_ind. intros Hi. destruct (Nat.eq_dec i 0) as [->|]; [apply ble_refl|].
  eapply ble_trans; [apply (IH (par i)); unfold par; lia|]. apply H. lia.
Qed.
Lemma closed_nil : closed []. Proof. intros i Hi. cbn in Hi. lia. Qed.
Lemma hnth_app1 h x i : i < length h -> hnth (h ++ [x]) i = hnth h i.
Proof. intros H. unfold hnth. apply app_nth1. auto. Qed.
Lemma push_closed h r : closed h -> closed (heap_push a h r).
Proof.
  intros H. unfold heap_push. apply sift_up_closed; [rewrite app_length; cbn; lia|lia|]. split.
  - intros i Hi Hn. rewrite app_length in Hi. cbn [length] in Hi. unfold lh. rewrite !hnth_app1 by (unfold par; lia). apply H. lia.
  - intros _ c Hc Ec. rewrite app_length in Hc. cbn [length] in Hc. unfold par in Ec. lia.
Qed.
Lemma pop_closed h r h' : closed h -> heap_pop a h = Some (r, h') -> closed h' /\ forall x, In x h -> ble (low r) (low x).
Proof.
  intros H E. assert (M : forall x, In x h -> ble (lh h 0) (low x)).
  { intros x Ix. apply (In_nth _ _ (0, 0)) in Ix. destruct Ix as (i & Hi & <-). apply (closed_top h H i Hi). }
  destruct h as [|top rest]; [discriminate|]. cbn [heap_pop] in E. destruct (rev rest) as [|last l] eqn:R.
  { injection E as <- <-. split; [apply closed_nil|exact M]. }
  apply (f_equal (@rev _)) in R. rewrite rev_involutive in R. cbn [rev] in R. set (q := rev l) in *. rewrite R, removelast_last in E. cbv zeta in E.
  pose proof (sift_down_inv (length (last :: q)) (last :: q) 0 ltac:(cbn; lia) ltac:(lia)) as D.
  destruct (sift_down (length (last :: q)) a (last :: q) 0) as [h2 hole]. assert (Eh : sift_up (length (last :: q)) a h2 hole = h') by congruence. assert (top = r) by congruence. subst r. rewrite <- Eh. split; [|exact M].
  destruct D as (I & L & Hh & Hl).
  { split; [|lia]. intros i Hi Hn Hp. assert (Eq : forall k, 0 < k -> k < length (last :: q) -> lh (last :: q) k = lh (top :: rest) k).
    { intros k K0 K1. unfold lh, hnth. destruct k as [|k]; [lia|]. cbn [nth]. rewrite R. cbn [length] in K1. rewrite app_nth1 by lia. reflexivity. }
    rewrite !Eq by (unfold par in *; lia). apply H. rewrite R. cbn [length] in *. rewrite app_length. lia. }
  apply sift_up_closed; [lia|lia|]. apply down_up; [exact I|lia].
Qed.
Lemma pushes_closed : forall l h, closed h -> closed (fold_left (fun q r => heap_push a q r) l h).
Proof. induction l as [|r l IH]; intros h H; cbn [fold_left]; auto. apply IH, push_closed, H. Qed.
End Low.

(** ** The search on two columns *)
Section Two.
Context {K : CostStruct} {F : Type} (sq_acc : K -> F -> F -> F -> K).
Notation D := (list F).
Context (n : nat) (w : D) (data : list (list D)).
Context (Hw : length w = n) (Hu : uniform n data) (Hne : data <> []).
Notation ct := (jcost sq_acc w).
Notation cst := (fun c x => cost2 sq_acc w x c).
Notation Wk := (W ct all_edges (datQ data) 0).
Notation pq := (@stl_queue K F).
Notation Hpq := (@stl_queue_ok K F).
(** [dij_rule] with the queue as it is *)
Lemma dij_rule_queue maxp L (I : narr K D -> list ref -> list ref -> nat -> Prop) :
  (forall a P q r q0 q' ncur a' g, I a P q (S g) -> wfd cst ct L a -> distinct a P q ->
     pq_pop pq a q = Some (r, q0) -> Permutation q (r :: q0) ->
     lk a (fst r) (snd r) = Some ncur -> n_visited ncur = true -> expanded ct all_edges a r ncur a' ->
     cexpand sq_acc w (pq_push pq) a q0 r = Ok (a', q') ->
     Permutation q' (q0 ++ filter (is_new all_edges a ncur) (col_refs a (S (fst r)))) ->
     I a' (r :: P) q' (if Nat.eqb (fst r) maxp then g else S g)) ->
  forall fuel a P q g, I a P q g -> wfd cst ct L a -> distinct a P q -> count_nodes a <= fuel + length P ->
  exists a' P' q' g', dij_loop sq_acc pq w maxp fuel a q g = Ok (a', g') /\ I a' P' q' g' /\ distinct a' P' q' /\ (g' = 0 \/ q' = []).
Proof.
  intros Hstep. induction fuel as [|fuel IH]; intros a P q g HI Hwf Hd Hf.
  - destruct g as [|g]; [exists a, P, q, 0; simpl; auto|].
    destruct (pq_pop pq a q) as [[r q0]|] eqn:Ep.
    + exfalso. pose proof (pq_perm pq Hpq _ _ _ _ Ep) as Hp. apply distinct_bound in Hd. apply Permutation_length in Hp. simpl in Hp. lia.
    + exists a, P, q, (S g). cbn [dij_loop]. rewrite Ep. apply (pq_empty pq Hpq) in Ep. auto.
  - destruct g as [|g]; [exists a, P, q, 0; simpl; auto|].
    cbn [dij_loop]. destruct (pq_pop pq a q) as [[r q0]|] eqn:Ep.
    2:{ exists a, P, q, (S g). apply (pq_empty pq Hpq) in Ep. auto. }
    pose proof (pq_perm pq Hpq _ _ _ _ Ep) as Hp.
    assert (Hr : exists ncur, lk a (fst r) (snd r) = Some ncur /\ n_visited ncur = true).
    { destruct Hd as [_ Hd]. apply Hd. apply in_app_iff. right. rewrite Hp. simpl; auto. }
    destruct Hr as (ncur & Hncur & Hvis).
    assert (Hde : deref a r = Ok ncur) by (destruct r; rewrite deref_lk; simpl in *; rewrite Hncur; auto).
    rewrite Hde. cbn [bind].
    assert (Hpi : n_pi ncur = fst r) by (destruct Hwf as (_ & H1 & _); eauto). rewrite Hpi.
    destruct (cexpand_pq sq_acc n w Hw pq Hpq L a q0 r ncur Hwf Hncur) as (a' & q' & He & Hex & Hq'). rewrite He. cbn [bind].
    pose proof (wfd_step _ _ _ _ _ _ _ _ Hwf Hex) as Hwf'.
    assert (Hd' : distinct a' (r :: P) q') by (eapply distinct_step; eauto).
    apply (IH a' (r :: P) q'); auto; [eapply Hstep; eauto|]. rewrite (count_nodes_same a a') by apply Hex. simpl. lia.
Qed.

Context (L2 : length data = 2).
Context (Hcol : Forall (fun col => col <> []) data).
Context (Hfin : forall i j js c, Wk i j js c -> clt c cinf = true).
Context (Hnn : forall x y d, adjacent data x y -> cle d (cadd d (ct x y))).
(** the start nodes *)
Definition low (r : ref) : bool := Nat.eqb (fst r) 0 && Nat.ltb (snd r) (length (nth 0 data [])).
(** a goal at distance zero *)
Definition hit (a : narr K D) : Prop := exists j v, lk a 1 j = Some v /\ clt czero (n_dist v) = false.
Definition state (a : narr K D) (q : list ref) : Prop := hit a \/ keys low a /\ closed low q.

Lemma dist_of_lk (a : narr K D) i j : dist_of a (i, j) = match lk a i j with Some v => n_dist v | None => cinf end.
Proof. unfold dist_of. rewrite deref_lk. destruct (lk a i j); reflexivity. Qed.
Lemma dist_write (a : narr K D) i j v u r : lk a i j = Some u ->
  dist_of (write a (i, j) v) r = if Nat.eqb (fst r) i && Nat.eqb (snd r) j then n_dist v else dist_of a r.
Proof.
  intros Hl. destruct r as [i' j']. rewrite !dist_of_lk. cbn [fst snd]. destruct (Nat.eqb_spec i' i) as [->|Ni]; cbn [andb].
  - destruct (Nat.eqb_spec j' j) as [->|Nj]; [rewrite (lk_write_same a i j v u Hl); reflexivity|]. rewrite lk_write_other by congruence. reflexivity.
  - rewrite lk_write_other by congruence. reflexivity.
Qed.
Lemma keys_same (a a' : narr K D) : (forall r, dist_of a' r = dist_of a r) -> keys low a -> keys low a'.
Proof. intros E [H1 H2]. split; intros r Hr; rewrite E; auto. Qed.
Lemma keys_write (a : narr K D) j v u : lk a 1 j = Some u -> clt czero (n_dist v) = true -> keys low a -> keys low (write a (1, j) v).
Proof.
  intros Hl Hv [H1 H2]. split; intros r Hr; rewrite (dist_write _ _ _ _ _ _ Hl); destruct (Nat.eqb_spec (fst r) 1) as [E1|]; cbn [andb]; auto.
  - exfalso. unfold low in Hr. rewrite E1 in Hr. discriminate.
  - destruct (Nat.eqb (snd r) j); auto.
Qed.
Lemma relax_state cur st nb st' : fst nb = 1 -> state (fst st) (snd st) -> relax1 cst (pq_push pq) cur st nb = Ok st' -> state (fst st') (snd st').
Proof.
  destruct st as [a q], nb as [i j]. cbn [fst snd]. intros -> HS E. unfold relax1 in E. destruct (deref a cur) as [ncur| |]; cbn [bind] in E; try discriminate.
  destruct (lk a 1 j) as [u|] eqn:Hl; rewrite deref_lk, Hl in E; cbn [bind] in E; [|discriminate].
  destruct (cost2 sq_acc w (n_data u) (n_data ncur)) as [c| |]; cbn [bind] in E; try discriminate.
  set (u1 := if clt (cadd (n_dist ncur) c) (n_dist u) then _ else _) in E.
  assert (Old : clt czero (n_dist u) = false -> clt czero (n_dist u1) = false).
  { intros Z. unfold u1. destruct (clt (cadd (n_dist ncur) c) (n_dist u)) eqn:Ec; auto. cbn [set_label n_dist]. destruct (clt czero (cadd (n_dist ncur) c)) eqn:Ez; auto.
    rewrite (clt_trans K _ _ _ Ez Ec) in Z. discriminate. }
  assert (Res : exists u2, n_dist u2 = n_dist u1 /\ (st' = (write a (1, j) u1, q) /\ u2 = u1 \/ st' = (write (write a (1, j) u1) (1, j) u2, heap_push (write a (1, j) u1) q (1, j)))).
  { destruct (n_visited u1); injection E as <-; [exists u1; auto|]. exists (set_visited u1). split; [reflexivity|]. right. reflexivity. }
  clear E. destruct Res as (u2 & D2 & Res).
  assert (Lk : lk (fst st') 1 j = Some u2).
  { destruct Res as [[-> ->]| ->]; cbn [fst]; [eapply lk_write_same; eauto|]. eapply lk_write_same, lk_write_same; eauto. }
  assert (Oth : forall j', j' <> j -> lk (fst st') 1 j' = lk a 1 j').
  { intros j' N. destruct Res as [[-> _]| ->]; cbn [fst]; rewrite !lk_write_other by congruence; reflexivity. }
  destruct (clt czero (n_dist u1)) eqn:Z1.
  2:{ left. exists j, u2. split; [exact Lk|]. rewrite D2. exact Z1. }
  destruct HS as [(j' & v & Hv & Zv)|[HK HC]].
  - left. destruct (Nat.eq_dec j' j) as [->|N]; [|exists j', v; rewrite Oth; auto]. assert (v = u) by congruence. subst v. discriminate (Old Zv).
  - right. pose proof (keys_write _ _ _ _ Hl Z1 HK) as HK1. destruct Res as [[-> _]| ->]; cbn [fst snd]; split; auto.
    + eapply keys_write; [eapply lk_write_same; eauto|rewrite D2; exact Z1|exact HK1].
    + apply (push_closed low _ HK1). exact HC.
Qed.
Lemma fold_state cur : forall nb st st', (forall r, In r nb -> fst r = 1) -> state (fst st) (snd st) -> foldM (relax1 cst (pq_push pq) cur) nb st = Ok st' -> state (fst st') (snd st').
Proof.
  induction nb as [|r nb IH]; intros st st' Hn HS E; cbn [foldM] in E; [injection E as <-; exact HS|].
  destruct (relax1 cst (pq_push pq) cur st r) as [st1| |] eqn:E1; cbn [bind] in E; try discriminate.
  apply (IH st1 st'); auto; [intros; apply Hn; right; auto|]. eapply relax_state; eauto. apply Hn; left; auto.
Qed.

Notation mx := (length data - 1).
Notation G0 := (length (nth (length data - 1) data [])).
Record two (a : narr K D) (P q : list ref) (g : nat) : Prop := {
  tw_inv : DInv sq_acc w data mx G0 a P q g;
  tw_eq : forall j v, lk a 1 j = Some v -> n_visited v = true -> exists j' u, n_parent v = PNode 0 j' /\ lk a 0 j' = Some u /\ n_dist v = cadd czero (ct (n_data u) (n_data v));
  tw_rel : forall i u j v, In (0, i) P -> lk a 0 i = Some u -> lk a 1 j = Some v -> cle (n_dist v) (cadd czero (ct (n_data u) (n_data v)));
  tw_state : hit a \/ keys low a /\ closed low q /\ (forall r, In r P -> fst r = 1 -> forall j v, lk a 0 j = Some v -> In (0, j) P) }.

Lemma low_lk a P q g j v : DInv sq_acc w data mx G0 a P q g -> lk a 0 j = Some v -> low (0, j) = true.
Proof.
  intros HI Hv. unfold low. cbn [fst snd]. apply Nat.ltb_lt. destruct (dv_shape _ _ _ _ _ _ _ _ _ HI) as (_ & E & _).
  rewrite <- (collen_cfresh (K := K) data 0), <- E. apply lk_Some_collen. eauto.
Qed.
Lemma ref_col a P q g r v : DInv sq_acc w data mx G0 a P q g -> lk a (fst r) (snd r) = Some v -> fst r = 0 \/ fst r = 1.
Proof.
  intros HI Hv. destruct (dv_shape _ _ _ _ _ _ _ _ _ HI) as (E & _). unfold lk in Hv. destruct (nth_error a (fst r)) eqn:En; [|discriminate].
  assert (fst r < length a) by (apply nth_error_Some; congruence). lia.
Qed.
Lemma two_step a P q r q0 q' ncur a' g : two a P q (S g) -> distinct a P q -> pq_pop pq a q = Some (r, q0) ->
  Permutation q (r :: q0) -> lk a (fst r) (snd r) = Some ncur -> n_visited ncur = true -> expanded ct all_edges a r ncur a' ->
  cexpand sq_acc w (pq_push pq) a q0 r = Ok (a', q') ->
  Permutation q' (q0 ++ filter (is_new all_edges a ncur) (col_refs a (S (fst r)))) ->
  two a' (r :: P) q' (if Nat.eqb (fst r) mx then g else S g).
Proof.
  intros [HI He Hr HS] Hd Hpop Hq Hn Hvis Hex Hce Hq'.
  pose proof (DInv_step sq_acc n w data Hw mx G0 Hfin _ _ _ _ _ _ _ _ _ HI Hd Hq Hn Hvis Hex Hq') as HI'.
  assert (Z0 : forall j, lk a' 0 j = lk a 0 j) by (intros j; destruct Hex as (_ & _ & E3 & _); apply E3; lia).
  assert (L1 : forall j v, lk a' 1 j = Some v -> exists v0, lk a 1 j = Some v0 /\ (v = v0 /\ fst r <> 0 \/ fst r = 0 /\ v = relax_node ct all_edges r ncur v0)).
  { intros j v Hv. destruct (expanded_lk _ _ _ _ _ _ _ _ _ Hex Hv) as (v0 & Hv0 & _). exists v0. split; auto. rewrite (expanded_lk_inv _ _ _ _ _ _ _ _ _ Hex Hv0) in Hv. injection Hv as <-.
    cbn [Nat.eqb]. destruct (fst r); [right|left]; split; auto. }
  assert (Zr : fst r = 0 -> n_dist ncur = czero) by (intros E; rewrite E in Hn; apply (dv_zero _ _ _ _ _ _ _ _ _ HI _ _ Hn)).
  constructor; auto.
  - intros j v Hv Vv. destruct (L1 j v Hv) as (v0 & Hv0 & [[-> N]|[E ->]]).
    + destruct (He _ _ Hv0 Vv) as (j' & u & A & B & C). exists j', u. rewrite Z0. auto.
    + destruct (relax_cases sq_acc w r ncur v0) as [[_ R]|[R0 R]]; rewrite R.
      * exists (snd r), ncur. cbn [n_parent n_dist n_data]. rewrite Z0, (Zr E). rewrite E in *. auto.
      * destruct (n_visited v0) eqn:V0.
        -- destruct (He _ _ Hv0 V0) as (j' & u & A & B & C). exists j', u. rewrite Z0. auto.
        -- exfalso. destruct (dv_new _ _ _ _ _ _ _ _ _ HI _ _ _ Hv0 V0) as (Ed & _). rewrite Ed in R0.
           destruct (dv_walk _ _ _ _ _ _ _ _ _ HI _ _ _ Hn Hvis) as (js & HW).
           pose proof (cshape_si _ _ _ _ _ (dv_shape _ _ _ _ _ _ _ _ _ HI) Hn) as (_ & _ & Hdn).
           pose proof (cshape_si _ _ _ _ _ (dv_shape _ _ _ _ _ _ _ _ _ HI) Hv0) as (_ & _ & Hdv).
           assert (HW2 : Wk 1 j (js ++ [j]) (cadd (n_dist ncur) (ct (n_data ncur) (n_data v0)))) by (rewrite E in HW, Hdn; econstructor; eauto; reflexivity).
           rewrite (Hfin _ _ _ _ HW2) in R0. discriminate.
  - intros i u j v Hin Hu' Hv. rewrite Z0 in Hu'. destruct (L1 j v Hv) as (v0 & Hv0 & Hcase).
    assert (Le : cle (n_dist v) (n_dist v0)).
    { destruct Hcase as [[-> _]|[_ ->]]; [apply cle_refl|]. destruct (relax_cases sq_acc w r ncur v0) as [[R0 R]|[R0 R]]; rewrite R; cbn; [apply clt_cle; exact R0|apply cle_refl]. }
    assert (Dd : n_data v = n_data v0).
    { destruct Hcase as [[-> _]|[_ ->]]; auto. destruct (relax_cases sq_acc w r ncur v0) as [[_ R]|[_ R]]; rewrite R; reflexivity. }
    rewrite Dd. destruct Hin as [Er|Hin].
    + destruct Hcase as [[_ N]|[E ->]]; [rewrite Er in N; cbn in N; congruence|]. rewrite Er in Hn. cbn [fst snd] in Hn. assert (u = ncur) by congruence. subst u.
      rewrite <- (Zr E). destruct (relax_cases sq_acc w r ncur v0) as [[R0 R]|[R0 R]]; rewrite R; cbn [n_dist set_visited]; [apply cle_refl|exact R0].
    + eapply cle_trans; [exact Le|]. eapply Hr; eauto.
  - assert (Hde : deref a r = Ok ncur) by (destruct r; rewrite deref_lk; simpl in *; rewrite Hn; auto).
    assert (Hpi : n_pi ncur = fst r) by (pose proof (cshape_si _ _ _ _ _ (dv_shape _ _ _ _ _ _ _ _ _ HI) Hn) as (_ & E & _); exact E).
    assert (St : state a q0 -> state a' q').
    { intros H0. unfold cexpand in Hce. rewrite Hde in Hce. cbn [bind] in Hce. unfold get_neighbors in Hce. rewrite Hpi in Hce.
      assert (La : length a = 2) by (destruct (dv_shape _ _ _ _ _ _ _ _ _ HI) as (E & _); congruence).
      destruct (Nat.eqb_spec (fst r) (length a - 1)) as [|N]; [cbn [bind foldM] in Hce; injection Hce as <- <-; exact H0|].
      destruct (nth_error a (fst r + 1)); cbn [bind] in Hce; [|discriminate].
      apply (fold_state r (col_refs a (fst r + 1)) (a, q0) (a', q')); auto. intros x I. apply in_col_refs in I. destruct (ref_col _ _ _ _ _ _ HI Hn); lia. }
    destruct HS as [H|(HK & HC & HP)]; [left; destruct (St (or_introl H)) as [|[HK HC]]; auto|].
    + (* a hit stays one *) destruct H as (j & v & Hv & Z). exists j. destruct (lk a' 1 j) as [v'|] eqn:Hv'.
      2:{ pose proof (expanded_lk_inv _ _ _ _ _ _ _ _ _ Hex Hv) as X. congruence. }
      exists v'. split; auto. destruct (L1 _ _ Hv') as (v0 & Hv0 & Hcase). assert (v0 = v) by congruence. subst v0.
      destruct (clt czero (n_dist v')) eqn:Z'; auto. exfalso. destruct Hcase as [[-> _]|[_ ->]]; [congruence|].
      destruct (relax_cases sq_acc w r ncur v) as [[R0 R]|[R0 R]]; rewrite R in Z'; cbn in Z'; [|congruence]. rewrite (clt_trans K _ _ _ Z' R0) in Z. discriminate.
    + destruct (pop_closed low a HK q r q0 HC Hpop) as [HC0 Htop]. destruct (St (or_intror (conj HK HC0))) as [|[HK' HC']]; [left; auto|right]. split; auto. split; auto.
      intros x [<-|Hx] Ex j v Hv; rewrite Z0 in Hv.
      * destruct (dv_zero _ _ _ _ _ _ _ _ _ HI _ _ Hv) as (Vv & _). pose proof (dv_in _ _ _ _ _ _ _ _ _ HI _ _ _ Hv Vv) as Hin. apply in_app_iff in Hin. destruct Hin as [Hin|Hin]; [right; auto|].
        exfalso. specialize (Htop _ Hin (low_lk _ _ _ _ _ _ HI Hv)). unfold low in Htop. rewrite Ex in Htop. discriminate.
      * right. eapply HP; eauto.
Qed.

Lemma two_start : two (start_column (fresh data) 0) [] (fold_left (fun q r => pq_push pq (start_column (fresh data) 0) q r) (col_refs (start_column (fresh data : narr K D) 0) 0) []) G0.
Proof.
  set (st := start_column (fresh data : narr K D) 0).
  assert (HI : DInv sq_acc w data mx G0 st [] (fold_left (fun q r => pq_push pq st q r) (col_refs st 0) []) G0).
  { apply (DInv_start sq_acc n w data Hw mx G0 (fresh data)); [apply cshape_fresh|apply fresh_untouched|]. apply dij_start_distinct. exact Hpq. }
  assert (New : forall i j v, i <> 0 -> lk st i j = Some v -> untouched PDummy v).
  { intros i j v N Hv. unfold st in Hv. rewrite lk_start_column in Hv. destruct (Nat.eqb_spec i 0); [lia|]. eapply fresh_untouched; eauto. }
  constructor.
  - exact HI.
  - intros j v Hv V. destruct (New 1 j v ltac:(lia) Hv) as (_ & _ & E). congruence.
  - intros i u j v [].
  - right. assert (HK : keys low st).
    { split; intros [i j] Hr; rewrite dist_of_lk; unfold low in Hr; cbn [fst snd] in Hr.
      - apply andb_true_iff in Hr. destruct Hr as [Hi Hj]. apply Nat.eqb_eq in Hi. apply Nat.ltb_lt in Hj. subst i.
        destruct (lk st 0 j) as [v|] eqn:Hv; [apply (dv_zero _ _ _ _ _ _ _ _ _ HI _ _ Hv)|]. exfalso.
        assert (X : exists v, lk st 0 j = Some v) by (apply lk_Some_collen; destruct (dv_shape _ _ _ _ _ _ _ _ _ HI) as (_ & E & _); rewrite E, collen_cfresh; exact Hj). destruct X. congruence.
      - assert (C0 : clt (czero : K) cinf = true).
        { destruct (nth 0 data []) as [|x c] eqn:E0. { exfalso. rewrite Forall_forall in Hcol. apply (Hcol (nth 0 data [])); auto. apply nth_In. lia. }
          apply (Hfin 0 0 [0] czero). apply W_start with (x := x). unfold datQ. rewrite (nth_error_nth' data []) by lia. rewrite E0. reflexivity. }
        destruct (lk st i j) as [v|] eqn:Hv; auto. destruct (Nat.eqb_spec i 0) as [->|N]; cbn [andb] in Hr.
        + apply Nat.ltb_ge in Hr. assert (j < collen st 0) by (apply lk_Some_collen; eauto). destruct (dv_shape _ _ _ _ _ _ _ _ _ HI) as (_ & E & _). rewrite E, collen_cfresh in H. lia.
        + destruct (New i j v N Hv) as (-> & _). exact C0. }
    split; [exact HK|]. split; [apply (pushes_closed low st HK), closed_nil|]. intros r [].
Qed.

Lemma two_optimal a P q g : two a P q g -> distinct a P q -> (g = 0 \/ q = []) ->
  exists js p, get_path_nodes true a = Ok (pn 0 js) /\ picks data js p /\ forall js' p', picks data js' p' -> cle (walk_cost ct p) (walk_cost ct p').
Proof.
  intros [HI He Hr HS] Hd Hend.
  assert (Cols : forall i, i < length data -> nth i data [] <> []) by (intros i Hi; rewrite Forall_forall in Hcol; apply Hcol, nth_In, Hi).
  assert (HG0 : 0 < G0) by (specialize (Cols mx ltac:(lia)); destruct (nth mx data []); [congruence|simpl; lia]).
  destruct (dij_extract sq_acc n w data Hw Hu Hne mx G0 Hfin a P q g HI Hd Hend eq_refl HG0 Cols) as (j & v & js & p & Hv & Hvis & Hle & Htr & Hp & Hg).
  assert (T1 : mx = 1) by lia. exists js, p. split; [exact Hg|]. split; [exact Hp|].
  assert (HW : Wk mx j js (n_dist v)).
  { rewrite T1 in *. destruct (He _ _ Hv Hvis) as (j' & u & A & B & ->). inversion Htr as [|i0 j0 j1 m js0 Hm Hpm Ht]; subst. assert (m = v) by congruence. subst m. assert (j0 = j') by congruence. subst j0.
    inversion Ht as [j2 m Hm2 Hp2|]; subst. 
    pose proof (cshape_si _ _ _ _ _ (dv_shape _ _ _ _ _ _ _ _ _ HI) B) as (_ & _ & Db). pose proof (cshape_si _ _ _ _ _ (dv_shape _ _ _ _ _ _ _ _ _ HI) Hv) as (_ & _ & Dv).
    apply (W_step ct all_edges (datQ data) 0 0 j' [j'] czero j (n_data u) (n_data v)); auto. apply W_start with (x := n_data u). exact Db. }
  destruct (Wk_top sq_acc n w data Hw Hu Hne _ _ _ HW) as (p2 & Hp2 & Ec). pose proof (picks_fun _ _ _ _ Hp Hp2). subst p2. rewrite Ec.
  intros js' p' Hp'. destruct (top_Wk sq_acc n w data Hw Hu Hne _ _ Hp') as (j' & HW'). rewrite T1 in *.
  inversion HW' as [|i0 j0 js0 c0 j1 x y HW0 Hx Hy _ E1 E2 E3 E4]; subst.
  inversion HW0; subst.
  destruct (wf_dat_inv _ _ _ _ _ (cshape_dat _ _ (dv_shape _ _ _ _ _ _ _ _ _ HI)) Hx) as (u & Hlu & Eu).
  destruct (wf_dat_inv _ _ _ _ _ (cshape_dat _ _ (dv_shape _ _ _ _ _ _ _ _ _ HI)) Hy) as (v' & Hlv & Ev).
  destruct HS as [(jh & vh & Hvh & Zh)|(HK & HC & HP)].
  - eapply cle_trans; [apply (Hle _ _ Hvh)|]. eapply cle_trans; [exact Zh|]. apply Hnn. eapply dat_adjacent; eauto.
  - eapply cle_trans; [apply (Hle _ _ Hlv)|]. rewrite <- Eu, <- Ev. eapply Hr; eauto.
    destruct (dv_zero _ _ _ _ _ _ _ _ _ HI _ _ Hlu) as (Vu & _). destruct Hend as [-> | ->].
    + pose proof (dv_goals _ _ _ _ _ _ _ _ _ HI) as Hgo. destruct (filter (fun r => Nat.eqb (fst r) 1) P) as [|r l] eqn:Ef; [simpl in Hgo; lia|].
      assert (Hir : In r (filter (fun r => Nat.eqb (fst r) 1) P)) by (rewrite Ef; left; auto). apply filter_In in Hir. destruct Hir as [Hir Er]. apply Nat.eqb_eq in Er. apply (HP r Hir ltac:(lia) _ _ Hlu).
    + pose proof (dv_in _ _ _ _ _ _ _ _ _ HI _ _ _ Hlu Vu) as Hin. rewrite app_nil_r in Hin. exact Hin.
Qed.
Lemma two_run : exists a g js p, multi_source_dijkstra sq_acc pq w mx G0 (fresh data) = Ok (a, g) /\ get_path_nodes true a = Ok (pn 0 js) /\ picks data js p /\
  forall js' p', picks data js' p' -> cle (walk_cost ct p) (walk_cost ct p').
Proof.
  unfold multi_source_dijkstra. destruct (fresh_ne (K := K) data Hne) as (c0 & a0 & Ef). rewrite Ef, <- Ef.
  pose proof two_start as H0. set (q0 := fold_left _ _ _) in *.
  assert (Hq0 : Permutation q0 (col_refs (start_column (fresh data : narr K D) 0) 0)) by (apply dij_start_distinct; exact Hpq).
  destruct (dij_rule_queue mx (length data) two) with (fuel := count_nodes (start_column (fresh data : narr K D) 0))
    (a := start_column (fresh data : narr K D) 0) (P := @nil ref) (q := q0) (g := G0) as (a & P & q & g & HA & HI & HD & HE).
  - intros. eapply two_step; eauto.
  - exact H0.
  - apply wfd_start. apply (cshape_wfd sq_acc n w data Hw Hu), cshape_fresh.
  - eapply distinct_perm; [exact Hq0|]. apply distinct_start.
  - simpl; lia.
  - destruct (two_optimal a P q g HI HD HE) as (js & p & Hg & Hp & Ho). exists a, g, js, p. auto.
Qed.
End Two.

(** run_dijkstra as it is, on two columns *)
Lemma cpp_dij_two {K : CostStruct} {F : Type} (f1 : F) (sq_acc : K -> F -> F -> F -> K) n data ow (s : cgraph K F) :
  uniform n data -> load f1 n data ow = Ok s -> length data = 2 -> Forall (fun col => col <> []) data ->
  (forall js p, picks data js p -> clt (walk_cost (jcost sq_acc (eff_weights f1 n ow)) p) cinf = true) ->
  (forall x y d, adjacent data x y -> cle d (cadd d (jcost sq_acc (eff_weights f1 n ow) x y))) ->
  exists s' js p, run_dijkstra sq_acc stl_queue s = Ok s' /\ get_path 2 s' = Ok (Some (map Z.of_nat js)) /\ picks data js p /\
    get_path_cost s' = walk_cost (jcost sq_acc (eff_weights f1 n ow)) p /\
    forall js' p', picks data js' p' -> cle (walk_cost (jcost sq_acc (eff_weights f1 n ow)) p) (walk_cost (jcost sq_acc (eff_weights f1 n ow)) p').
Proof.
  intros Hu Hs L2 Hcol Hfin Hnn. destruct (load_inv f1 n data ow s Hu Hs) as [-> Hne]. set (w := eff_weights f1 n ow) in *. assert (Hw : length w = n) by apply eff_weights_length.
  assert (HF : forall i j js c, W (jcost sq_acc w) all_edges (datQ data) 0 i j js c -> clt c cinf = true).
  { apply (walks_finite sq_acc n w data Hw Hu Hne Hfin). intros i Hi. rewrite Forall_forall in Hcol. apply Hcol, nth_In, Hi. }
  destruct (two_run sq_acc n w data Hw Hu Hne L2 Hcol HF Hnn) as (a & g & js & p & HA & HC & HD & HO).
  destruct (dij_run_any f1 sq_acc n data ow Hu Hne Hcol Hfin stl_queue stl_queue_ok) as (a2 & g2 & js2 & p2 & HA2 & HB & _). fold w in HA2. rewrite HA in HA2. injection HA2 as <- <-.
  unfold run_dijkstra. cbn [weights max_path_index num_goals na gd loaded]. fold w. rewrite HA. cbn [bind]. rewrite HC. cbn [bind].
  rewrite (path_cost_picks sq_acc n w data Hw Hu a js p HB HD). cbn [bind].
  eexists. exists js, p. split; [reflexivity|]. split; [|auto]. rewrite <- L2. eapply get_path_ok; eauto.
Qed.

(** Exact real arithmetic, non-negative weights. *)
Lemma cpp_dij_two_real (n : nat) (data : list (list (list R))) ow s :
  uniform n data -> load 1%R n data ow = Ok s -> length data = 2 -> Forall (fun col => col <> []) data ->
  (forall w, ow = Some w -> Forall (fun x => 0 <= x)%R w) ->
  exists s' js p, run_dijkstra (K := RCost) rsq stl_queue s = Ok s' /\ get_path 2 s' = Ok (Some (map Z.of_nat js)) /\ picks data js p /\
    get_path_cost s' = walk_cost (jcost rsq (eff_weights 1%R n ow)) p /\
    forall js' p', picks data js' p' -> cle (walk_cost (jcost rsq (eff_weights 1%R n ow)) p) (walk_cost (jcost rsq (eff_weights 1%R n ow)) p').
Proof.
  intros Hu Hs L2 Hcol Hw. apply (cpp_dij_two (K := RCost) 1%R rsq n data ow s Hu Hs L2 Hcol).
  - intros js p _. apply (rsq_finite (eff_weights 1%R n ow) p).
  - intros x y d _. apply rsq_nonneg. apply eff_weights_nonneg; auto.
Qed.

(** Three columns, exact integers, unit weights: 17 for 13. *)
Definition heap_cols3 : list (list (list Z)) := [[[-14]; [-4]]; [[-6]; [-13]; [-19]; [13]; [-19]; [2]]; [[-9]]]%Z.
Lemma cpp_dij_three_refuted : exists s s' js js' p p',
  uniform 1 heap_cols3 /\ load 1%Z 1 heap_cols3 None = Ok s /\ run_dijkstra zsq stl_queue s = Ok s' /\
  get_path 3 s' = Ok (Some (map Z.of_nat js)) /\ picks heap_cols3 js p /\ get_path_cost s' = walk_cost (jcost zsq [1%Z]) p /\
  picks heap_cols3 js' p' /\ walk_cost (jcost zsq [1%Z]) p = Some 17%Z /\ walk_cost (jcost zsq [1%Z]) p' = Some 13%Z.
Proof.
  unfold uniform, heap_cols3. do 2 eexists. exists [0; 1; 0], [1; 0; 0], [[-14]; [-13]; [-9]]%Z, [[-4]; [-6]; [-9]]%Z. split; [repeat constructor|].
  split; [vm_compute; reflexivity|]. split; [vm_compute; reflexivity|].
  split; [vm_compute; reflexivity|]. split; [simpl; auto|]. split; [vm_compute; reflexivity|]. split; [simpl; auto|]. split; vm_compute; reflexivity.
Qed.

(** Two columns, a negative weight: -16 for -25. *)
Definition neg_cols : list (list (list Z)) := [[[1]; [0]]; [[5]]]%Z.
Lemma cpp_dij_two_negative_refuted : exists s s' p p',
  uniform 1 neg_cols /\ load 1%Z 1 neg_cols (Some [-1]%Z) = Ok s /\ run_dijkstra zsq stl_queue s = Ok s' /\
  get_path 2 s' = Ok (Some [0; 0]%Z) /\ picks neg_cols [0; 0] p /\ get_path_cost s' = walk_cost (jcost zsq [-1]%Z) p /\
  picks neg_cols [1; 0] p' /\ walk_cost (jcost zsq [-1]%Z) p = Some (-16)%Z /\ walk_cost (jcost zsq [-1]%Z) p' = Some (-25)%Z.
Proof.
  unfold uniform, neg_cols. do 2 eexists. exists [[1]; [5]]%Z, [[0]; [5]]%Z. split; [repeat constructor|].
  split; [vm_compute; reflexivity|]. split; [vm_compute; reflexivity|].
  split; [vm_compute; reflexivity|]. split; [simpl; auto|]. split; [vm_compute; reflexivity|]. split; [simpl; auto|]. split; vm_compute; reflexivity.
Qed.
