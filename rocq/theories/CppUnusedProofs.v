(** * Proofs about the functions of graph.cpp that nothing calls. *)
From Coq Require Import List Arith ZArith Bool Lia Permutation Reals Lra.
From Verif Require Import PyBase Cost SpecPath GraphCommon GraphProofs GraphWalks CppGraph CppGraphProofs CppSearch CppHeap CppMain CppFinal CppExamples CppUnused.
Import ListNotations.
Local Open Scope nat_scope.

(** ** The searches are sequences of visits *)
Section Visits.
Context {K : CostStruct} {F : Type} (sq_acc : K -> F -> F -> F -> K).
Notation D := (list F).
(** a node without its visited flag *)
Definition forget (v : node K D) : node K D := mkNode (n_pi v) (n_si v) (n_data v) (n_dist v) (n_parent v) false.
Definition labels (a : narr K D) : narr K D := map (map forget) a.

Lemma labels_deref a r : deref (labels a) r = (v <- deref a r ;; Ok (forget v)).
Proof. unfold deref, labels. rewrite nth_error_map. destruct (nth_error a (fst r)) as [col|]; cbn; auto. rewrite nth_error_map. destruct (nth_error col (snd r)); reflexivity. Qed.
Lemma map_upd {A B} (f : A -> B) : forall l i x, map f (upd l i x) = upd (map f l) i (f x).
Proof. induction l as [|y l IH]; intros [|i] x; cbn; auto. rewrite IH. reflexivity. Qed.
Lemma labels_write a r v : labels (write a r v) = write (labels a) r (forget v).
Proof. unfold write, labels. rewrite nth_error_map. destruct (nth_error a (fst r)) as [col|]; cbn; auto. rewrite !map_upd. reflexivity. Qed.
Lemma labels_col_refs a i : col_refs (labels a) i = col_refs a i.
Proof. unfold col_refs, labels. rewrite nth_error_map. destruct (nth_error a i); cbn; auto. rewrite map_length. reflexivity. Qed.
Lemma labels_neighbors a v : get_neighbors (labels a) (forget v) = get_neighbors a v.
Proof.
  unfold get_neighbors. cbn [n_pi forget]. unfold labels at 1 2. rewrite map_length, nth_error_map. destruct (Nat.eqb _ _); auto.
  destruct (nth_error a (n_pi v + 1)); cbn; auto. rewrite labels_col_refs. reflexivity.
Qed.
Definition rmap {A B} (f : A -> B) (r : res A) : res B := x <- r ;; Ok (f x).
Lemma labels_visit1 w cur a nb : visit1 sq_acc w cur (labels a) nb = rmap labels (visit1 sq_acc w cur a nb).
Proof.
  unfold visit1, rmap. rewrite !labels_deref. destruct (deref a cur) as [c| |]; cbn [bind]; auto. destruct (deref a nb) as [v| |]; cbn [bind]; auto. cbn [forget n_data n_dist].
  destruct (cost2 sq_acc w (n_data v) (n_data c)); cbn [bind]; auto. destruct (clt _ _); auto. f_equal. symmetry. apply labels_write.
Qed.
Lemma labels_fold w cur : forall nb a, foldM (visit1 sq_acc w cur) nb (labels a) = rmap labels (foldM (visit1 sq_acc w cur) nb a).
Proof.
  induction nb as [|r nb IH]; intros a; cbn [foldM]; [reflexivity|]. rewrite labels_visit1. destruct (visit1 sq_acc w cur a r); cbn [rmap bind]; auto.
Qed.
Lemma labels_visit w a cur : visit sq_acc w (labels a) cur = rmap labels (visit sq_acc w a cur).
Proof.
  unfold visit. rewrite labels_deref. destruct (deref a cur) as [c| |]; cbn [bind rmap]; auto. rewrite labels_neighbors. destruct (get_neighbors a c); cbn [bind rmap]; auto. apply labels_fold.
Qed.
Lemma write_twice (a : narr K D) r u v : write (write a r u) r v = write a r v.
Proof.
  unfold write. destruct (nth_error a (fst r)) as [col|] eqn:E; [|rewrite E; auto].
  rewrite nth_error_upd_same by (apply nth_error_Some; congruence).
  assert (U : forall {A} (l : list A) i x y, upd (upd l i x) i y = upd l i y) by (induction l as [|z l IH]; intros [|i] x y; cbn; auto; rewrite IH; auto).
  rewrite !U. reflexivity.
Qed.
Lemma write_same (a : narr K D) r v : deref a r = Ok v -> write a r v = a.
Proof.
  unfold deref, write. destruct (nth_error a (fst r)) as [col|] eqn:E; [|discriminate]. destruct (nth_error col (snd r)) as [u|] eqn:E2; [|discriminate]. intros H. injection H as ->.
  assert (U : forall {A} (l : list A) i x, nth_error l i = Some x -> upd l i x = l) by (induction l as [|z l IH]; intros [|i] x H; cbn in *; try discriminate; [congruence|rewrite IH; auto]).
  rewrite (U _ col), U; auto.
Qed.
Lemma relax_visit w push cur a q nb a' q' : relax1 (fun c n => cost2 sq_acc w n c) push cur (a, q) nb = Ok (a', q') ->
  exists b, visit1 sq_acc w cur a nb = Ok b /\ labels b = labels a'.
Proof.
  unfold relax1, visit1. destruct (deref a cur) as [c| |]; cbn [bind]; try discriminate. destruct (deref a nb) as [v| |] eqn:Ev; cbn [bind]; try discriminate.
  destruct (cost2 sq_acc w (n_data v) (n_data c)) as [k| |]; cbn [bind]; try discriminate. intros H. eexists. split; [reflexivity|].
  destruct (clt _ _); cbn [n_visited set_label] in H.
  - destruct (n_visited v); injection H as <- _; auto. rewrite write_twice, !labels_write. reflexivity.
  - destruct (n_visited v); injection H as <- _.
    + rewrite write_same; auto.
    + rewrite write_twice, labels_write. rewrite <- (write_same a nb v Ev) at 1. rewrite labels_write. reflexivity.
Qed.
Lemma labels_eq_fold w cur nb a b c : labels a = labels b -> foldM (visit1 sq_acc w cur) nb a = Ok c -> exists d, foldM (visit1 sq_acc w cur) nb b = Ok d /\ labels d = labels c.
Proof.
  intros E H. pose proof (labels_fold w cur nb a) as Ha. pose proof (labels_fold w cur nb b) as Hb. rewrite E, Hb, H in Ha. cbn in Ha.
  destruct (foldM (visit1 sq_acc w cur) nb b) as [d| |]; cbn in Ha; try discriminate. injection Ha as Ha. eauto.
Qed.
Lemma relax_fold_visit w push cur : forall nb a q a' q', foldM (relax1 (fun c n => cost2 sq_acc w n c) push cur) nb (a, q) = Ok (a', q') ->
  exists b, foldM (visit1 sq_acc w cur) nb a = Ok b /\ labels b = labels a'.
Proof.
  induction nb as [|r nb IH]; intros a q a' q' H; cbn [foldM] in H |- *; [injection H as <- _; eauto|].
  destruct (relax1 _ push cur (a, q) r) as [[a1 q1]| |] eqn:E; cbn [bind] in H; try discriminate. apply relax_visit in E. destruct E as (b1 & E1 & L1). rewrite E1. cbn [bind].
  destruct (IH a1 q1 a' q' H) as (b & E2 & L2). destruct (labels_eq_fold w cur nb a1 b1 b (eq_sym L1) E2) as (d & E3 & L3). exists d. split; auto. congruence.
Qed.
Lemma expand_visit w push a q cur a' q' : cexpand sq_acc w push a q cur = Ok (a', q') -> exists b, visit sq_acc w a cur = Ok b /\ labels b = labels a'.
Proof.
  unfold cexpand, visit. destruct (deref a cur) as [c| |]; cbn [bind]; try discriminate. destruct (get_neighbors a c) as [nb| |]; cbn [bind]; try discriminate. apply relax_fold_visit.
Qed.
Lemma visit_eq w cur a b c : labels a = labels b -> visit sq_acc w a cur = Ok c -> exists d, visit sq_acc w b cur = Ok d /\ labels d = labels c.
Proof.
  intros E H. pose proof (labels_visit w a cur) as Ha. pose proof (labels_visit w b cur) as Hb. rewrite E, Hb, H in Ha. cbn in Ha.
  destruct (visit sq_acc w b cur) as [d| |]; cbn in Ha; try discriminate. injection Ha as Ha. eauto.
Qed.
(** two arrays of one shape with the same nodes *)
Lemma arr_ext : forall a b : narr K D, length a = length b -> (forall i, collen a i = collen b i) -> (forall i j, lk a i j = lk b i j) -> a = b.
Proof.
  induction a as [|x a IH]; intros [|y b] L C H; cbn in L; try discriminate; auto. f_equal.
  - specialize (C 0). cbn in C. assert (G : forall j, nth_error x j = nth_error y j) by (intros j; apply (H 0 j)). clear - C G. revert y C G. induction x as [|u x IH]; intros [|v y] C G; cbn in C; try discriminate; auto.
    f_equal; [specialize (G 0); cbn in G; congruence|]. apply IH; [lia|]. intros j. apply (G (S j)).
  - apply IH; [lia| |]; intros i; [apply (C (S i))|intros j; apply (H (S i) j)].
Qed.
Lemma expanded_fun ct edge (a : narr K D) r ncur a1 a2 : expanded ct edge a r ncur a1 -> expanded ct edge a r ncur a2 -> a1 = a2.
Proof.
  intros (A1 & A2 & A3 & A4) (B1 & B2 & B3 & B4). apply arr_ext; [congruence|intros; rewrite A2, B2; auto|]. intros i j. destruct (Nat.eq_dec i (S (fst r))) as [->|N]; [rewrite A4, B4|rewrite A3, B3 by auto]; reflexivity.
Qed.
Lemma foldM_app {A B} (f : A -> B -> res A) : forall l1 l2 a, foldM f (l1 ++ l2) a = (x <- foldM f l1 a ;; foldM f l2 x).
Proof. induction l1 as [|x l1 IH]; intros l2 a; cbn [foldM app bind]; auto. destruct (f a x); cbn [bind]; auto. Qed.

Context (n : nat) (w : list F) (data : list (list D)) (Hw : length w = n) (Hu : uniform n data) (Hne : data <> []).
Notation ct := (jcost sq_acc w).
Notation cst := (fun c x => cost2 sq_acc w x c).
(** a0 with the nodes of [rev P] visited carries the labels of a *)
Definition visited_so_far (a0 a : narr K D) (P : list ref) : Prop := exists b, foldM (visit sq_acc w) (rev P) a0 = Ok b /\ labels b = labels a.
Lemma visits_step L push a0 a P r ncur a' : wfd cst ct L a -> lk a (fst r) (snd r) = Some ncur -> expanded ct all_edges a r ncur a' ->
  (exists a1 q1, cexpand sq_acc w push a [] r = Ok (a1, q1) /\ expanded ct all_edges a r ncur a1) ->
  visited_so_far a0 a P -> visited_so_far a0 a' (r :: P).
Proof.
  intros Hwf Hn Hex (a1 & q1 & E1 & Hex1) (b & Eb & Lb). rewrite (expanded_fun _ _ _ _ _ _ _ Hex1 Hex) in *. apply expand_visit in E1. destruct E1 as (c & Ec & Lc).
  destruct (visit_eq w r a b c (eq_sym Lb) Ec) as (d & Ed & Ld). exists d. cbn [rev]. rewrite foldM_app, Eb. cbn [bind foldM]. rewrite Ed. cbn [bind]. split; auto. congruence.
Qed.
Lemma visits_start a0 : visited_so_far a0 a0 [].
Proof. exists a0. split; reflexivity. Qed.
Lemma dij_visits (pq : pqueue K F) mx g : pq_ok pq -> exists a g' order b, multi_source_dijkstra sq_acc pq w mx g (fresh data) = Ok (a, g') /\
  NoDup order /\ (forall r, In r order -> exists v, deref (fresh data : narr K D) r = Ok v) /\
  foldM (visit sq_acc w) order (start_column (fresh data) 0) = Ok b /\ labels b = labels a.
Proof.
  intros Hpq. unfold multi_source_dijkstra. destruct (fresh_ne (K := K) data Hne) as (c0 & a0 & Ef). rewrite Ef, <- Ef.
  pose proof (dij_start_distinct pq (fresh data) Hpq) as Hq0. set (q0 := fold_left _ _ _) in *. set (st := start_column (fresh data : narr K D) 0) in *.
  destruct (dij_rule sq_acc n w Hw pq Hpq mx (length data) (fun a P _ _ => visited_so_far st a P)) with (fuel := count_nodes st) (a := st) (P := @nil ref) (q := q0) (g := g)
    as (a & P & q & g' & HA & (b & Eb & Lb) & _ & HD & _ & H1 & _ & H3).
  - intros a P q r q1 q' ncur a' g1 HI Hwf HD _ _ Hn _ Hex _. apply (visits_step (length data) (pq_push pq) st a P r ncur a'); auto.
    destruct (cexpand_pq sq_acc n w Hw pq Hpq (length data) a [] r ncur Hwf Hn) as (a1 & q2 & E & Hex1 & _). eauto.
  - apply visits_start.
  - apply wfd_start. apply (cshape_wfd sq_acc n w data Hw Hu), cshape_fresh.
  - eapply distinct_perm; [exact Hq0|]. apply distinct_start.
  - simpl; lia.
  - exists a, g', (rev P), b. split; [exact HA|]. destruct HD as [ND HD]. split; [|split; [|auto]].
    + apply NoDup_rev. clear - ND. induction P as [|x P IH]; [constructor|]. cbn in ND. inversion ND; subst. constructor; auto. intros I. apply H1. apply in_or_app. auto.
    + intros r I. apply in_rev in I. destruct (HD r) as (v & Hv & _); [apply in_or_app; auto|]. destruct r as [i j]. cbn [fst snd] in Hv. rewrite deref_lk.
      pose proof (same_keys_trans _ _ _ (same_keys_start 0 (fresh data : narr K D)) H3 i j) as Kk. rewrite Hv in Kk. destruct (lk (fresh data) i j); [eauto|discriminate].
Qed.
(** columns up to k are queued or popped, nothing of column k is popped *)
Definition queued (a : narr K D) (P q : list ref) : Prop := exists k, rev P ++ q = flat_map (col_refs a) (seq 0 (S k)) /\ (forall r, In r P -> fst r < k) /\
  forall i j v, lk a i j = Some v -> (n_visited v = true <-> i <= k).
Lemma col_refs_expanded (a : narr K D) r ncur a' i : expanded ct all_edges a r ncur a' -> col_refs a' i = col_refs a i.
Proof. intros (_ & H & _). rewrite !col_refs_collen, H. reflexivity. Qed.
Lemma filter_all {A} (f : A -> bool) l : (forall x, In x l -> f x = true) -> filter f l = l.
Proof. induction l as [|x l IH]; intros H; cbn; auto. rewrite H by (left; auto). f_equal. apply IH. intros y I. apply H. right; auto. Qed.
Lemma filter_none {A} (f : A -> bool) l : (forall x, In x l -> f x = false) -> filter f l = [].
Proof. induction l as [|x l IH]; intros H; cbn; auto. rewrite H by (left; auto). apply IH. intros y I. apply H. right; auto. Qed.
Lemma queued_step a P r q ncur a' : queued a P (r :: q) -> lk a (fst r) (snd r) = Some ncur -> expanded ct all_edges a r ncur a' ->
  queued a' (r :: P) (q ++ filter (is_new all_edges a ncur) (col_refs a (S (fst r)))).
Proof.
  intros (k & E & HP & HV) Hn Hex.
  assert (Ex : forall m, flat_map (col_refs a') (seq 0 m) = flat_map (col_refs a) (seq 0 m)) by (intros m; apply flat_map_ext; intros i; eapply col_refs_expanded; eauto).
  assert (Hr : fst r <= k).
  { assert (I : In r (flat_map (col_refs a) (seq 0 (S k)))) by (rewrite <- E; apply in_or_app; right; left; auto). apply in_flat_map in I. destruct I as (i & Hi & I). apply in_seq in Hi. apply in_col_refs in I. lia. }
  assert (Vis : forall i j v, lk a' i j = Some v -> (n_visited v = true <-> i <= k \/ i = S (fst r))).
  { intros i j v Hv. destruct (expanded_lk ct all_edges a r ncur a' i j v Hex Hv) as (u & Hu' & _). rewrite (expanded_lk_inv ct all_edges a r ncur a' i j u Hex Hu') in Hv. injection Hv as <-.
    destruct (Nat.eqb_spec i (S (fst r))) as [Ei|Ni]; [split; auto|]. rewrite (HV _ _ _ Hu'). tauto. }
  destruct (Nat.eq_dec (fst r) k) as [Ek|Nk].
  - exists (S k). rewrite Ex. split; [|split].
    + rewrite filter_all. 2:{ intros x I. apply in_col_refs in I. destruct I as (E1 & v & Ev). unfold is_new, all_edges. rewrite Ev. cbn [andb]. destruct (n_visited v) eqn:Vv; auto. apply (HV _ _ _ Ev) in Vv. lia. }
      cbn [rev]. rewrite <- app_assoc. cbn [app]. change (r :: q ++ col_refs a (S (fst r))) with ((r :: q) ++ col_refs a (S (fst r))). rewrite app_assoc, E, Ek. rewrite (seq_S (S k)), flat_map_app. cbn [plus flat_map]. rewrite app_nil_r. reflexivity.
    + intros x [<-|I]; [lia|]. specialize (HP x I). lia.
    + intros i j v Hv. rewrite (Vis i j v Hv). lia.
  - exists k. rewrite Ex. split; [|split].
    + rewrite filter_none. 2:{ intros x I. apply in_col_refs in I. destruct I as (E1 & v & Ev). unfold is_new. rewrite Ev. assert (V : n_visited v = true) by (apply (HV _ _ _ Ev); lia). rewrite V. apply andb_false_r. }
      rewrite app_nil_r. cbn [rev]. rewrite <- app_assoc. exact E.
    + intros x [<-|I]; [lia|auto].
    + intros i j v Hv. rewrite (Vis i j v Hv). lia.
Qed.
Lemma bfs_visits : Forall (fun col => col <> []) data -> exists a b, multi_source_bfs sq_acc w (fresh data) = Ok a /\
  foldM (visit sq_acc w) (col_refs (fresh data : narr K D) 0 ++ init_unvisited (fresh data : narr K D)) (start_column (fresh data) 0) = Ok b /\ labels b = labels a.
Proof.
  intros Hc. unfold multi_source_bfs. destruct (fresh_ne (K := K) data Hne) as (c0 & a0 & Ef). rewrite Ef, <- Ef. set (st := start_column (fresh data : narr K D) 0) in *.
  destruct (bfs_rule cst ct all_edges (length data) (cexpand sq_acc w fifo_push)) with (I := fun a P q => visited_so_far st a P /\ queued a P q) (fuel := count_nodes st) (na := st) (P := @nil ref) (q := col_refs st 0)
    as (a & P & HA & [(b & Eb & Lb) (k & Ek & Pk & _)] & _ & HD & H1 & H2 & _).
  - intros. eapply cexpand_fifo; eauto.
  - intros a P r q ncur a' [HI HQ] Hwf _ Hn Hex. split; [|eapply queued_step; eauto]. apply (visits_step (length data) fifo_push st a P r ncur a'); auto.
    destruct (cexpand_fifo sq_acc n w Hw (length data) a [] r ncur Hwf Hn) as (a1 & E & Hex1). eauto.
  - split; [apply visits_start|]. exists 0. cbn [rev app seq flat_map]. rewrite app_nil_r. split; [reflexivity|]. split; [intros ? []|].
    intros i j v Hv. unfold st in Hv. rewrite lk_start_column in Hv. destruct (Nat.eqb_spec i 0) as [->|N]; [destruct (lk (fresh data) 0 j); [|discriminate]; injection Hv as <-; cbn; split; auto|].
    destruct (fresh_untouched data i j v Hv) as (_ & _ & ->). split; [discriminate|lia].
  - apply wfd_start. apply (cshape_wfd sq_acc n w data Hw Hu), cshape_fresh.
  - apply distinct_start.
  - simpl; lia.
  - exists a, b. split; [exact HA|]. split; [|exact Lb]. rewrite <- Eb. f_equal. rewrite app_nil_r in Ek. rewrite Ek.
    assert (Cr : forall i, col_refs a i = col_refs (fresh data : narr K D) i) by (intros i; rewrite !col_refs_collen, H1; unfold st; rewrite collen_start_column; reflexivity).
    assert (La : length (fresh data : narr K D) = length data) by apply fresh_length.
    assert (Full : forall i, i < length data -> col_refs (fresh data : narr K D) i <> []).
    { intros i Hi Z. rewrite col_refs_collen in Z. apply map_eq_nil in Z. unfold collen in Z. destruct (nth_error (fresh data) i) as [col|] eqn:En; [|apply nth_error_None in En; lia].
      pose proof (fresh_nth (K := K) data i) as G. rewrite (nth_error_nth _ _ [] En) in G. subst col. rewrite cmk_col_length in Z. destruct (nth i data []) eqn:Ed; [|discriminate].
      rewrite Forall_forall in Hc. apply (Hc (nth i data [])); auto. apply nth_In; auto. }
    assert (Hk : length data <= k).
    { destruct (Nat.le_gt_cases (length data) k) as [|Lt]; auto. exfalso. destruct (col_refs (fresh data : narr K D) k) as [|x l] eqn:El; [apply (Full k Lt El)|].
      assert (I : In x (rev P)). { rewrite Ek. apply in_flat_map. exists k. split; [apply in_seq; lia|]. rewrite Cr, El. left; auto. }
      apply in_rev in I. apply Pk in I. assert (J : In x (col_refs (fresh data : narr K D) k)) by (rewrite El; left; auto). apply in_col_refs in J. lia. }
    rewrite (flat_map_ext _ _ Cr). unfold init_unvisited. rewrite La. destruct (length data) as [|m] eqn:Em; [destruct data; [congruence|discriminate]|]. 
    replace (S m - 1) with m by lia. replace (S k) with (S m + (S k - S m)) by lia. rewrite seq_app, flat_map_app. cbn [seq flat_map plus].
    replace (flat_map (col_refs (fresh data : narr K D)) (seq (S m) (S k - S m))) with (@nil ref); [rewrite app_nil_r; reflexivity|].
    symmetry. assert (Z : forall s m', S m <= s -> flat_map (col_refs (fresh data : narr K D)) (seq s m') = []).
    { intros s m'. revert s. induction m' as [|m' IHm]; intros s Hs; cbn [seq flat_map]; auto. rewrite IHm by lia. unfold col_refs. destruct (nth_error (fresh data) s) eqn:En; auto. assert (s < length (fresh data : narr K D)) by (apply nth_error_Some; congruence). lia. }
    apply Z. lia.
Qed.
End Visits.
Lemma unvisited_spec {K : CostStruct} {F : Type} (a : narr K (list F)) : NoDup (init_unvisited a) /\ forall r, In r (init_unvisited a) <-> 1 <= fst r /\ exists v, deref a r = Ok v.
Proof.
  split.
  - unfold init_unvisited. generalize (length a - 1). intros m. generalize 1. induction m as [|m IH]; intros s; cbn [seq flat_map]; [constructor|]. apply NoDup_app_intro; [apply col_refs_NoDup|apply IH|].
    intros x I J. apply in_col_refs in I. apply in_flat_map in J. destruct J as (i & Hi & J). apply in_seq in Hi. apply in_col_refs in J. lia.
  - intros [i j]. unfold init_unvisited. rewrite in_flat_map. cbn [fst]. rewrite deref_lk. split.
    + intros (i' & Hi & I). apply in_seq in Hi. apply in_col_refs in I. cbn [fst snd] in I. destruct I as (-> & v & ->). split; [lia|eauto].
    + intros (H1 & v & Hv). destruct (lk a i j) as [u|] eqn:El; [|discriminate]. exists i. split; [|apply in_col_refs; cbn; eauto]. apply in_seq. unfold lk in El. destruct (nth_error a i) eqn:En; [|discriminate]. assert (i < length a) by (apply nth_error_Some; congruence). lia.
Qed.

(** ** set_graph_data *)
Lemma set_data_columns {K : CostStruct} {F : Type} n (data : list (list (list F))) : uniform n data ->
  foldM (fun s rows => add_data_column (concat rows) (length rows) n s) data cnew = Ok (set_graph_data (K := K) data cnew).
Proof. intros H. rewrite load_rows by auto. reflexivity. Qed.

(** ** sort_function orders nodes *)
Lemma sort_order {K : CostStruct} {F : Type} (x y z : node K (list F)) :
  sort_function x x = false /\ (sort_function x y = true -> sort_function y z = true -> sort_function x z = true) /\
  (sort_function x y = false -> sort_function y z = false -> sort_function x z = false).
Proof.
  unfold sort_function. split; [apply clt_irrefl|]. split.
  - intros A B. eapply clt_trans; eauto.
  - intros A B. destruct (clt (n_dist z) (n_dist x)) eqn:E; auto. destruct (clt_weak K _ (n_dist y) _ E) as [H|H]; congruence.
Qed.

(** ** The int index *)
Local Open Scope Z_scope.
Lemma int32_ok z : 0 <= z < 2 ^ 31 -> int32 z = Ok z.
Proof. intros H. unfold int32. replace (- 2 ^ 31 <=? z) with true by (symmetry; apply Z.leb_le; lia). replace (z <? 2 ^ 31) with true by (symmetry; apply Z.ltb_lt; lia). reflexivity. Qed.
Lemma int32_bad z : 2 ^ 31 <= z -> int32 z = Raise OutOfBounds.
Proof. intros H. unfold int32. replace (z <? 2 ^ 31) with false by (symmetry; apply Z.ltb_ge; lia). rewrite andb_false_r. reflexivity. Qed.
Lemma index_ok ncols i j : 0 <= j < ncols -> 0 <= i -> j + ncols * i < 2 ^ 31 -> index32 ncols i j = Ok (j + ncols * i).
Proof. intros Hj Hi H. unfold index32. rewrite int32_ok by nia. cbn [bind]. apply int32_ok. nia. Qed.
Lemma mapM_ext_in {A B} (f g : A -> res B) l : (forall x, In x l -> f x = g x) -> mapM f l = mapM g l.
Proof. induction l as [|x l IH]; intros H; cbn [mapM]; auto. rewrite (H x) by (left; auto). rewrite IH by (intros; apply H; right; auto). reflexivity. Qed.
Lemma add_small {K : CostStruct} {F : Type} (mat : list F) nrows ncols (s : cgraph K F) : Z.of_nat nrows * Z.of_nat ncols <= 2 ^ 31 -> add_data_column32 mat nrows ncols s = add_data_column mat nrows ncols s.
Proof.
  intros H. unfold add_data_column32, add_data_column. f_equal. apply mapM_ext_in. intros i Hi. apply in_seq in Hi. unfold mat_row32, mat_row. apply mapM_ext_in. intros j Hj. apply in_seq in Hj.
  assert (Z.of_nat ncols * Z.of_nat i <= Z.of_nat ncols * (Z.of_nat nrows - 1)) by (apply Z.mul_le_mono_nonneg_l; lia).
  rewrite index_ok by lia. cbn [bind]. replace (Z.to_nat (Z.of_nat j + Z.of_nat ncols * Z.of_nat i)) with (j + ncols * i)%nat by lia. reflexivity.
Qed.
Lemma mapM_raise {A B} (f : A -> res B) l x : In x l -> (forall y, In y l -> (exists b, f y = Ok b) \/ f y = Raise OutOfBounds) -> f x = Raise OutOfBounds -> mapM f l = Raise OutOfBounds.
Proof.
  induction l as [|y l IH]; intros I H E; [destruct I|]. cbn [mapM]. destruct (H y (or_introl eq_refl)) as [[b Eb]|Eb]; rewrite Eb; cbn [bind]; auto.
  destruct I as [->|I]; [congruence|]. rewrite IH; auto. intros z Iz. apply H. right; auto.
Qed.
Lemma mapM_or {A B} (f : A -> res B) l : (forall y, In y l -> (exists b, f y = Ok b) \/ f y = Raise OutOfBounds) -> (exists b, mapM f l = Ok b) \/ mapM f l = Raise OutOfBounds.
Proof.
  induction l as [|y l IH]; intros H; cbn [mapM]; [left; eexists; reflexivity|]. destruct (H y (or_introl eq_refl)) as [[b Eb]|Eb]; rewrite Eb; cbn [bind]; auto.
  destruct IH as [[c ->]| ->]; [intros z Iz; apply H; right; auto|left; eexists; reflexivity|auto].
Qed.
Lemma add_large {K : CostStruct} {F : Type} (mat : list F) nrows ncols (s : cgraph K F) : 2 ^ 31 < Z.of_nat nrows * Z.of_nat ncols -> add_data_column32 mat nrows ncols s = Raise OutOfBounds.
Proof.
  intros H. unfold add_data_column32.
  assert (E1 : forall i j, (exists b, (k <- index32 (Z.of_nat ncols) (Z.of_nat i) (Z.of_nat j) ;; match nth_error mat (Z.to_nat k) with Some x => Ok x | None => Raise OutOfBounds end) = Ok b) \/
    (k <- index32 (Z.of_nat ncols) (Z.of_nat i) (Z.of_nat j) ;; match nth_error mat (Z.to_nat k) with Some x => Ok x | None => Raise OutOfBounds end) = Raise OutOfBounds).
  { intros i j. unfold index32, int32. destruct (_ && _); cbn [bind]; auto. destruct (_ && _); cbn [bind]; auto. destruct (nth_error mat _); eauto. }
  assert (Hr : (0 < nrows)%nat) by (destruct nrows; lia). assert (Hc : (0 < ncols)%nat) by (destruct ncols; lia).
  rewrite (mapM_raise _ _ (nrows - 1)%nat); [reflexivity|apply in_seq; lia|intros i _; apply mapM_or; intros j _; apply E1|].
  unfold mat_row32. apply (mapM_raise _ _ (ncols - 1)%nat); [apply in_seq; lia|intros j _; apply E1|].
  unfold index32. destruct (int32 (Z.of_nat ncols * Z.of_nat (nrows - 1))) as [p| |] eqn:Ep; cbn [bind].
  - unfold int32 in Ep. destruct (_ && _); [|discriminate]. injection Ep as <-. rewrite int32_bad by nia. reflexivity.
  - unfold int32 in Ep. destruct (_ && _); [discriminate|]. injection Ep as <-. reflexivity.
  - unfold int32 in Ep. destruct (_ && _); discriminate.
Qed.

(** ** cost_function is a distance, cost_function_2 is not *)
Local Open Scope R_scope.
Fixpoint l1 (w a b : list R) : R := match w, a, b with u :: w', x :: a', y :: b' => u * Rabs (x - y) + l1 w' a' b' | _, _, _ => 0 end.
Lemma cost1_l1 w : forall a b acc, length a = length w -> length b = length w -> cost1_loop w a b acc = Ok (acc + l1 w a b).
Proof.
  induction w as [|u w IH]; intros [|x a] [|y b] acc La Lb; try discriminate; cbn [cost1_loop l1]; [f_equal; lra|]. rewrite IH by (cbn in *; lia). f_equal. lra.
Qed.
Lemma l1_pos w : forall a b, Forall (fun u => 0 <= u) w -> 0 <= l1 w a b.
Proof. induction w as [|u w IH]; intros [|x a] [|y b] H; cbn [l1]; try lra. inversion H; subst. pose proof (Rabs_pos (x - y)). specialize (IH a b ltac:(auto)). nra. Qed.
Lemma l1_sym w : forall a b, l1 w a b = l1 w b a.
Proof. induction w as [|u w IH]; intros [|x a] [|y b]; cbn [l1]; auto. rewrite IH, Rabs_minus_sym. reflexivity. Qed.
Lemma l1_tri w : forall a b c, length a = length w -> length b = length w -> length c = length w -> Forall (fun u => 0 <= u) w -> l1 w a c <= l1 w a b + l1 w b c.
Proof.
  induction w as [|u w IH]; intros [|x a] [|y b] [|z c] La Lb Lc H; try discriminate; cbn [l1]; [lra|]. inversion H; subst. specialize (IH a b c ltac:(cbn in *; lia) ltac:(cbn in *; lia) ltac:(cbn in *; lia) ltac:(auto)).
  assert (Rabs (x - z) <= Rabs (x - y) + Rabs (y - z)) by (replace (x - z) with (x - y + (y - z)) by lra; apply Rabs_triang). nra.
Qed.
Lemma l1_zero w : forall a b, length a = length w -> length b = length w -> Forall (fun u => 0 < u) w -> l1 w a b = 0 -> a = b.
Proof.
  induction w as [|u w IH]; intros [|x a] [|y b] La Lb H E; try discriminate; auto. cbn [l1] in E. inversion H as [|? ? Hu Hw]; subst.
  assert (P : 0 <= l1 w a b) by (apply l1_pos; eapply Forall_impl; [|exact Hw]; intros; lra). pose proof (Rabs_pos (x - y)) as P2.
  assert (Z : Rabs (x - y) = 0) by nra. assert (x = y) by (destruct (Req_dec (x - y) 0) as [|Nz]; [lra|]; apply Rabs_no_R0 in Nz; lra).
  f_equal; auto. apply IH; auto; cbn in *; try lia. nra.
Qed.
Lemma l1_refl w : forall a, l1 w a a = 0.
Proof. induction w as [|u w IH]; intros [|x a]; cbn [l1]; auto. rewrite IH. replace (x - x) with 0 by lra. rewrite Rabs_R0. lra. Qed.
Lemma cost1_outside (w a b : list R) : (length w < length a \/ length b < length a)%nat -> cost1 w a b = Raise OutOfBounds.
Proof.
  unfold cost1. generalize 0%R. revert a b. induction w as [|u w IH]; intros [|x a] [|y b] acc H; simpl in *; try lia; auto. apply IH. lia.
Qed.
Lemma cost1_metric w : exists d : list R -> list R -> R, (forall a b, length a = length w -> length b = length w -> cost1 w a b = Ok (d a b)) /\
  (Forall (fun u => 0 <= u) w -> forall a b c, length a = length w -> length b = length w -> length c = length w -> 0 <= d a b /\ d a b = d b a /\ d a a = 0 /\ d a c <= d a b + d b c) /\
  (Forall (fun u => 0 < u) w -> forall a b, length a = length w -> length b = length w -> d a b = 0 -> a = b).
Proof.
  exists (l1 w). split; [|split].
  - intros a b La Lb. unfold cost1. rewrite cost1_l1 by auto. f_equal. lra.
  - intros H a b c La Lb Lc. split; [apply l1_pos; auto|]. split; [apply l1_sym|]. split; [apply l1_refl|apply l1_tri; auto].
  - intros H a b La Lb. apply l1_zero; auto.
Qed.
Lemma cost2_detour : exists a b c x y z, cost2 (K := RCost) rsq [1] a b = Ok (Some x) /\ cost2 (K := RCost) rsq [1] b c = Ok (Some y) /\ cost2 (K := RCost) rsq [1] a c = Ok (Some z) /\ x + y < z.
Proof. exists [0], [1], [2]. unfold cost2. cbn. unfold rsq. eexists _, _, _. repeat (split; [reflexivity|]). lra. Qed.
