(** * Proofs about graph.cpp: the property statements. *)
From Coq Require Import List Arith Lia Bool ZArith Permutation Reals Lra.
From Verif Require Import PyBase Cost SpecPath GraphCommon GraphProofs CppGraph CppGraphProofs CppSearch CppHeap CppMain CppExamples.
Import ListNotations.
Local Open Scope nat_scope.

Section F.
Context (K : CostStruct) (F : Type) (f1 : F) (sq_acc : K -> F -> F -> F -> K).
Context (n : nat) (data : list (list (list F))) (ow : option (list F)) (s : cgraph K F).
Context (Hu : uniform n data) (Hs : load f1 n data ow = Ok s).
Notation ct := (jcost sq_acc (eff_weights f1 n ow)).

Lemma cpp_bfs_optimal s' : run_bfs sq_acc s = Ok s' ->
  exists js p, get_path (length data) s' = Ok (Some (map Z.of_nat js)) /\ picks data js p /\
    forall js' p', picks data js' p' -> cle (walk_cost ct p) (walk_cost ct p').
Proof.
  intros H. destruct (cbfs_spec f1 sq_acc n data ow Hu s Hs) as [[H1 _]|(s2 & js & p & H1 & H2 & H3 & H4 & H5 & H6 & H7)]; [congruence|].
  assert (s2 = s') by congruence. subst s2. eauto.
Qed.
Lemma cpp_bfs_crash :
  (exists s', run_bfs sq_acc s = Ok s') /\ (exists js p, picks data js p /\ clt (walk_cost ct p) cinf = true) \/
  run_bfs sq_acc s = Raise NullDeref /\ (forall js p, picks data js p -> clt (walk_cost ct p) cinf = false).
Proof.
  destruct (cbfs_spec f1 sq_acc n data ow Hu s Hs) as [[H1 H2]|(s2 & js & p & H1 & H2 & H3 & H4 & H5 & H6 & H7)]; [right; auto|].
  left. split; eauto.
Qed.
Lemma cpp_bfs_path s' : run_bfs sq_acc s = Ok s' ->
  exists js p, get_path (length data) s' = Ok (Some (map Z.of_nat js)) /\ picks data js p /\ get_path_cost s' = walk_cost ct p.
Proof.
  intros H. destruct (cbfs_spec f1 sq_acc n data ow Hu s Hs) as [[H1 _]|(s2 & js & p & H1 & H2 & H3 & H4 & H5 & H6 & H7)]; [congruence|].
  assert (s2 = s') by congruence. subst s2. eauto 6.
Qed.
Lemma cpp_bfs_rows s' : run_bfs sq_acc s = Ok s' ->
  exists js, get_path (length data) s' = Ok (Some (map Z.of_nat js)) /\ in_range data js.
Proof.
  intros H. destruct (cpp_bfs_path s' H) as (js & p & H1 & H2 & _). exists js. split; auto.
  clear -H2. revert js p H2. induction data as [|c Q IH]; intros [|j js] [|x p] H; simpl in *; try tauto.
  destruct H as [H1 H2]. split; [apply nth_error_Some; congruence|eauto].
Qed.
Lemma cpp_bfs_again s' : run_bfs sq_acc s = Ok s' -> run_bfs sq_acc s' = Ok s'.
Proof.
  intros H. destruct (cbfs_spec f1 sq_acc n data ow Hu s Hs) as [[H1 _]|(s2 & js & p & H1 & H2 & _)]; [congruence|]. congruence.
Qed.

Lemma s_data_ne : data <> [].
Proof. destruct (load_inv f1 n data ow s Hu Hs); auto. Qed.

Section D.
Context (pq : pqueue K F) (Hpq : pq_ok pq) (Hcol : Forall (fun col => col <> []) data)
  (Hfin : forall js p, picks data js p -> clt (walk_cost ct p) cinf = true).
Lemma cpp_dij_path : exists s', run_dijkstra sq_acc pq s = Ok s' /\
  exists js p, get_path (length data) s' = Ok (Some (map Z.of_nat js)) /\ picks data js p /\ get_path_cost s' = walk_cost ct p.
Proof.
  destruct (cdij_spec f1 sq_acc n data ow Hu s_data_ne Hcol Hfin pq Hpq s Hs) as (s' & js & p & H1 & H2 & H3 & H4). eauto 8.
Qed.
Lemma cpp_dij_rows : exists s', run_dijkstra sq_acc pq s = Ok s' /\
  exists js, get_path (length data) s' = Ok (Some (map Z.of_nat js)) /\ in_range data js.
Proof.
  destruct cpp_dij_path as (s' & H & js & p & H1 & H2 & _). exists s'. split; auto. exists js. split; auto.
  clear -H2. revert js p H2. induction data as [|c Q IH]; intros [|j js] [|x p] H; simpl in *; try tauto.
  destruct H as [H1 H2]. split; [apply nth_error_Some; congruence|eauto].
Qed.
Lemma cpp_dij_min : pops_minimum pq -> (forall x y d, adjacent data x y -> cle d (cadd d (ct x y))) ->
  exists s', run_dijkstra sq_acc pq s = Ok s' /\
  exists js p, get_path (length data) s' = Ok (Some (map Z.of_nat js)) /\ picks data js p /\
    forall js' p', picks data js' p' -> cle (walk_cost ct p) (walk_cost ct p').
Proof.
  intros Hmin Hnn. destruct (cdij_min f1 sq_acc n data ow Hu s_data_ne Hcol Hfin pq Hpq s Hs Hmin Hnn)
    as (s' & js & p & H1 & H2 & H3 & H4 & H5). eauto 8.
Qed.
End D.

Lemma cpp_bfs_stops fuel : length (concat data) <= fuel ->
  exists a, bfs_loop (cexpand sq_acc (weights s) fifo_push) fuel (start_column (na s) 0) (col_refs (start_column (na s) 0) 0) = Ok a.
Proof.
  intros Hf. destruct (load_inv f1 n data ow s Hu Hs) as [-> _].
  destruct (bfs_any f1 sq_acc n data ow Hu (fresh data) fuel (cshape_fresh data) Hf) as (a & H & _). eauto.
Qed.
Lemma cpp_dij_stops (pq : pqueue K F) fuel g : pq_ok pq -> length (concat data) <= fuel ->
  exists r, dij_loop sq_acc pq (weights s) (max_path_index s) fuel (start_column (na s) 0)
    (fold_left (fun q r => pq_push pq (start_column (na s) 0) q r) (col_refs (start_column (na s) 0) 0) []) g = Ok r.
Proof.
  intros Hpq Hf. destruct (load_inv f1 n data ow s Hu Hs) as [-> _].
  destruct (dij_any f1 sq_acc n data ow Hu pq (fresh data) (length data - 1) g fuel Hpq (cshape_fresh data) Hf) as (a & g' & H). eauto.
Qed.
Lemma cpp_get_path_other_length s' m : run_bfs sq_acc s = Ok s' -> m <> length data -> get_path m s' = Ok None.
Proof.
  intros H Hm. destruct (load_inv f1 n data ow s Hu Hs) as [E Hne]. rewrite E in H.
  destruct (run_bfs_spec sq_acc n (eff_weights f1 n ow) data (eff_weights_length f1 n ow) Hu Hne (loaded f1 n data ow))
    as [[H1 _]|(a & js & p & H1 & H2 & H3 & H4 & H5 & _)].
  - reflexivity.
  - apply cshape_fresh.
  - apply fresh_untouched.
  - congruence.
  - rewrite H1 in H. injection H as <-. unfold get_path. cbn [path_found na]. rewrite H4. cbn [bind].
    rewrite pn_length. pose proof (GraphWalks.picks_length _ _ _ H5) as [L _]. rewrite L.
    apply Nat.eqb_neq in Hm. rewrite Hm. reflexivity.
Qed.
Lemma cpp_get_path_before m : get_path m s = Ok (Some (repeat (-1)%Z m)).
Proof. destruct (load_inv f1 n data ow s Hu Hs) as [-> _]. reflexivity. Qed.
Lemma cpp_weights_cost (w : list F) s' : ow = Some w -> length w = n -> run_bfs sq_acc s = Ok s' ->
  exists js p, get_path (length data) s' = Ok (Some (map Z.of_nat js)) /\ picks data js p /\
    get_path_cost s' = walk_cost (jcost sq_acc w) p.
Proof.
  intros E Hl H. pose proof (cpp_bfs_path s' H) as Hp. rewrite E in Hp. unfold eff_weights in Hp. rewrite Hl, Nat.eqb_refl in Hp. exact Hp.
Qed.
End F.

(** Dijkstra with the real heap is not optimal. *)
Definition heap_cols : list (list (list Z)) := [[[1]]; [[5]; [-4]]; [[-1]; [3]]; [[-2]]]%Z.
Lemma cpp_dij_refuted : exists s s' p,
  uniform 1 heap_cols /\ load 1%Z 1 heap_cols None = Ok s /\ run_dijkstra zsq stl_queue s = Ok s' /\
  get_path 4 s' = Ok (Some [0; 0; 1; 0]%Z) /\ get_path_cost s' = Some 45%Z /\
  picks heap_cols [0; 1; 0; 0] p /\ walk_cost (jcost zsq [1%Z]) p = Some 35%Z.
Proof.
  unfold uniform, heap_cols. do 2 eexists. exists [[1]; [-4]; [-1]; [-2]]%Z. split; [repeat constructor|].
  split; [vm_compute; reflexivity|]. split; [vm_compute; reflexivity|].
  split; [vm_compute; reflexivity|]. split; [vm_compute; reflexivity|]. split; [repeat split|]. vm_compute. reflexivity.
Qed.

(** Exact real arithmetic, non-negative weights. *)
Lemma eff_weights_nonneg n ow : (forall w, ow = Some w -> Forall (fun x => 0 <= x)%R w) ->
  Forall (fun x => 0 <= x)%R (eff_weights 1%R n ow).
Proof.
  intros H. assert (Hr : Forall (fun x => 0 <= x)%R (repeat 1%R n)).
  { apply Forall_forall. intros x Hx. apply repeat_spec in Hx. subst; lra. }
  unfold eff_weights. destruct ow as [w|]; auto. destruct (Nat.eqb (length w) n); auto.
Qed.
Lemma cpp_dij_real (n : nat) (data : list (list (list R))) ow s (pq : pqueue RCost R) :
  uniform n data -> Forall (fun col => col <> []) data -> load 1%R n data ow = Ok s ->
  (forall w, ow = Some w -> Forall (fun x => 0 <= x)%R w) -> pq_ok pq -> pops_minimum pq ->
  exists s', run_dijkstra rsq pq s = Ok s' /\
  exists js p, get_path (length data) s' = Ok (Some (map Z.of_nat js)) /\ picks data js p /\
    forall js' p', picks data js' p' -> cle (walk_cost (jcost rsq (eff_weights 1%R n ow)) p) (walk_cost (jcost rsq (eff_weights 1%R n ow)) p').
Proof.
  intros Hu Hcol Hs Hw Hpq Hmin. apply (cpp_dij_min RCost R 1%R rsq n data ow s Hu Hs pq Hpq Hcol); auto.
  - intros js p _. apply (rsq_finite (eff_weights 1%R n ow) p).
  - intros x y d _. apply rsq_nonneg. apply eff_weights_nonneg; auto.
Qed.

(** init twice *)
Lemma cpp_init_twice_refuted : exists (data : list (list (list Z))) s s1 s2,
  uniform 1 data /\ load 1%Z 1 data None = Ok s /\ run_bfs zsq s = Ok s1 /\ init 1%Z s = Ok s2 /\
  run_bfs zsq s2 <> Ok s1 /\ get_path 2 s1 = Ok (Some [0; 0]%Z) /\ forall s3, run_bfs zsq s2 <> Ok s3.
Proof.
  exists [[[1]]; [[2]]]%Z. do 3 eexists. split; [unfold uniform; repeat constructor|].
  split; [vm_compute; reflexivity|]. split; [vm_compute; reflexivity|]. split; [vm_compute; reflexivity|].
  split; [vm_compute; discriminate|]. split; [vm_compute; reflexivity|].
  intros s3. vm_compute. discriminate.
Qed.
