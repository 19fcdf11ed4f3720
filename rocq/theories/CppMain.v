(** * Proofs about graph.cpp: the public functions of class Graph. *)
From Coq Require Import List Arith Lia Bool ZArith Permutation Reals Lra.
From Verif Require Import PyBase Cost SpecPath GraphCommon GraphProofs GraphWalks CppGraph CppGraphProofs CppSearch CppHeap.
Import ListNotations.
Local Open Scope nat_scope.

(** A queue whose pop returns an element of least current distance. *)
Definition pops_minimum {K : CostStruct} {F} (pq : pqueue K F) : Prop :=
  forall a q r q', pq_pop pq a q = Some (r, q') -> forall x, In x q -> cle (dist_of a r) (dist_of a x).

(** Calls on a loaded graph; a call that raises ends the history. *)
Inductive cop : Type := OBfs | ODij | OReset | OPath (n : nat).

Section M.
Context {K : CostStruct} {F : Type}.
Context (f1 : F) (sq_acc : K -> F -> F -> F -> K).
Notation D := (list F).

Definition cexec (pq : pqueue K F) (s : cgraph K F) (o : cop) : res (cgraph K F) :=
  match o with
  | OBfs => run_bfs sq_acc s
  | ODij => run_dijkstra sq_acc pq s
  | OReset => creset s
  | OPath n => _ <- get_path n s ;; Ok s
  end.

Lemma load_inv n data ow (s : cgraph K F) : uniform n data -> load f1 n data ow = Ok s ->
  s = loaded f1 n data ow /\ data <> [].
Proof.
  intros Hu H. destruct data as [|[|row col] rest].
  - unfold load in H. cbn [foldM bind] in H. destruct ow; discriminate.
  - exfalso. unfold load in H. rewrite load_rows in H by auto. cbn [bind] in H.
    destruct ow; unfold set_weights, init in H; cbn [gd na app cnew] in H;
    destruct (to_node_array 0 ([] :: rest) []); discriminate.
  - rewrite (load_ok f1 n) in H; eauto. split; [congruence|discriminate].
Qed.

Section L.
Context (n : nat) (data : list (list D)) (ow : option (list F)) (Hu : uniform n data).
Notation w := (eff_weights f1 n ow).
Notation ct := (jcost sq_acc w).
Notation Hw := (eff_weights_length f1 n ow).
Notation s0 := (loaded f1 n data ow).

Lemma cbfs_spec s : load f1 n data ow = Ok s ->
  (run_bfs sq_acc s = Raise NullDeref /\ forall js p, picks data js p -> clt (walk_cost ct p) cinf = false) \/
  (exists s' js p, run_bfs sq_acc s = Ok s' /\ run_bfs sq_acc s' = Ok s' /\
     get_path (length data) s' = Ok (Some (map Z.of_nat js)) /\ picks data js p /\ get_path_cost s' = walk_cost ct p /\
     clt (walk_cost ct p) cinf = true /\
     forall js' p', picks data js' p' -> cle (walk_cost ct p) (walk_cost ct p')).
Proof.
  intros Hs. destruct (load_inv _ _ _ _ Hu Hs) as [-> Hne].
  destruct (run_bfs_spec sq_acc n w data Hw Hu Hne s0) as [[H1 H2]|(a & js & p & H1 & H2 & H3 & H4 & H5 & H6 & H7)].
  - reflexivity.
  - apply cshape_fresh.
  - apply fresh_untouched.
  - left. split; auto. intros js p Hp. destruct (clt (walk_cost ct p) cinf) eqn:E; auto. exfalso. apply H2. exists js, p. auto.
  - right. eexists. exists js, p. split; [exact H1|]. split.
    + unfold run_bfs. cbn [weights na gd num_goals max_path_index]. rewrite (bfs_again sq_acc n w data Hw Hu Hne a H2 H3).
      cbn [bind]. rewrite H4. cbn [bind]. rewrite (path_cost_picks sq_acc n w data Hw Hu a js p H2 H5). reflexivity.
    + split; [|auto 10]. eapply get_path_ok; eauto.
Qed.

(** ** Dijkstra *)
Lemma dij_start_distinct (pq : pqueue K F) (a : narr K D) : pq_ok pq ->
  Permutation (fold_left (fun q r => pq_push pq (start_column a 0) q r) (col_refs (start_column a 0) 0) [])
    (col_refs (start_column a 0) 0).
Proof. intros Hpq. rewrite (push_all pq Hpq), app_nil_r. reflexivity. Qed.

Lemma distinct_perm (a : narr K D) P q q' : Permutation q' q -> distinct a P q -> distinct a P q'.
Proof.
  intros Hp [D1 D2]. split.
  - eapply Permutation_NoDup; [|exact D1]. apply Permutation_app_head. symmetry; auto.
  - intros r Hr. apply D2. apply in_app_iff in Hr. apply in_app_iff. rewrite Hp in Hr. auto.
Qed.

Section Dij.
Context (Hne : data <> []) (Hcol : Forall (fun col => col <> []) data).
Context (Hfin : forall js p, picks data js p -> clt (walk_cost ct p) cinf = true).

Lemma cols_ne i : i < length data -> nth i data [] <> [].
Proof. intros Hi. rewrite Forall_forall in Hcol. apply Hcol. apply nth_In; auto. Qed.

Lemma fin_walks : forall i j js c, W ct all_edges (datQ data) 0 i j js c -> clt c cinf = true.
Proof. apply (walks_finite sq_acc n w data Hw Hu Hne Hfin cols_ne). Qed.

Lemma goals_pos : 0 < length (nth (length data - 1) data []).
Proof.
  assert (0 < length data) by (destruct data; [congruence|simpl; lia]).
  pose proof (cols_ne (length data - 1) ltac:(lia)).
  destruct (nth (length data - 1) data []); [congruence|simpl; lia].
Qed.

Section Q.
Context (pq : pqueue K F) (Hpq : pq_ok pq).
Notation mx := (length data - 1).
Notation G0 := (length (nth (length data - 1) data [])).
Notation dij := (multi_source_dijkstra sq_acc pq w mx G0 (fresh data)).

Lemma dij_run_any : exists a g js p, dij = Ok (a, g) /\ cshape data a /\ get_path_nodes true a = Ok (pn 0 js) /\ picks data js p.
Proof.
  unfold multi_source_dijkstra. destruct (fresh_ne (K := K) data Hne) as (c0 & a0 & Ef). rewrite Ef, <- Ef.
  pose proof (dij_start_distinct pq (fresh data) Hpq) as Hq0. set (q0 := fold_left _ _ _) in *.
  destruct (dij_rule sq_acc n w Hw pq Hpq mx (length data) (DInv sq_acc w data mx G0)) with
    (fuel := count_nodes (start_column (fresh data : narr K D) 0))
    (a := start_column (fresh data : narr K D) 0) (P := @nil ref) (q := q0) (g := G0)
    as (a & P & q & g & HA & HI & _ & HD & HE & _).
  - intros a P q r q1 q' ncur a' g HI _ HD _ Hp Hn Hv Hex Hq'.
    eapply (DInv_step sq_acc n w data Hw mx G0 fin_walks); eauto.
  - eapply DInv_start; eauto using cshape_fresh, fresh_untouched; try apply (eff_weights_length f1 n ow).
  - apply wfd_start. apply (cshape_wfd sq_acc n w data Hw Hu), cshape_fresh.
  - eapply distinct_perm; [exact Hq0|]. apply distinct_start.
  - simpl; lia.
  - destruct (dij_extract sq_acc n w data Hw Hu Hne mx G0 fin_walks a P q g HI HD HE eq_refl goals_pos cols_ne)
      as (j & v & js & p & _ & _ & _ & _ & Hp & Hg).
    exists a, g, js, p. split; [exact HA|]. split; [exact (dv_shape _ _ _ _ _ _ _ _ _ HI)|]. auto.
Qed.

Lemma dij_run_min : pops_minimum pq -> (forall x y d, adjacent data x y -> cle d (cadd d (ct x y))) ->
  exists a g js p, dij = Ok (a, g) /\ get_path_nodes true a = Ok (pn 0 js) /\ picks data js p /\
    forall js' p', picks data js' p' -> cle (walk_cost ct p) (walk_cost ct p').
Proof.
  intros Hmin Hnn.
  unfold multi_source_dijkstra. destruct (fresh_ne (K := K) data Hne) as (c0 & a0 & Ef). rewrite Ef, <- Ef.
  pose proof (dij_start_distinct pq (fresh data) Hpq) as Hq0. set (q0 := fold_left _ _ _) in *.
  destruct (dij_rule sq_acc n w Hw pq Hpq mx (length data) (DMin sq_acc w data mx G0)) with
    (fuel := count_nodes (start_column (fresh data : narr K D) 0))
    (a := start_column (fresh data : narr K D) 0) (P := @nil ref) (q := q0) (g := G0)
    as (a & P & q & g & HA & HI & _ & HD & HE & _).
  - intros a P q r q1 q' ncur a' g HI _ HD Hpop Hp Hn Hv Hex Hq'.
    eapply (DMin_step sq_acc n w data Hw pq mx G0 fin_walks Hmin Hnn); eauto.
  - eapply DMin_start; eauto using cshape_fresh, fresh_untouched; try apply (eff_weights_length f1 n ow).
  - apply wfd_start. apply (cshape_wfd sq_acc n w data Hw Hu), cshape_fresh.
  - eapply distinct_perm; [exact Hq0|]. apply distinct_start.
  - simpl; lia.
  - destruct (dij_optimal sq_acc n w data Hw Hu Hne mx G0 fin_walks a P q g HI HD HE eq_refl eq_refl cols_ne)
      as (js & p & Hg & Hp & Ho).
    exists a, g, js, p. split; [exact HA|]. auto.
Qed.

Lemma cdij_spec s : load f1 n data ow = Ok s ->
  exists s' js p, run_dijkstra sq_acc pq s = Ok s' /\
     get_path (length data) s' = Ok (Some (map Z.of_nat js)) /\ picks data js p /\ get_path_cost s' = walk_cost ct p.
Proof.
  intros Hs. destruct (load_inv _ _ _ _ Hu Hs) as [-> _].
  destruct dij_run_any as (a & g & js & p & HA & HB & HC & HD).
  unfold run_dijkstra. cbn [weights max_path_index num_goals na gd loaded]. rewrite HA. cbn [bind]. rewrite HC. cbn [bind].
  rewrite (path_cost_picks sq_acc n w data Hw Hu a js p HB HD). cbn [bind].
  eexists. exists js, p. split; [reflexivity|]. split; [|auto]. eapply get_path_ok; eauto.
Qed.

Lemma cdij_min s : load f1 n data ow = Ok s -> pops_minimum pq ->
  (forall x y d, adjacent data x y -> cle d (cadd d (ct x y))) ->
  exists s' js p, run_dijkstra sq_acc pq s = Ok s' /\
     get_path (length data) s' = Ok (Some (map Z.of_nat js)) /\ picks data js p /\ get_path_cost s' = walk_cost ct p /\
     forall js' p', picks data js' p' -> cle (walk_cost ct p) (walk_cost ct p').
Proof.
  intros Hs Hmin Hnn. destruct (load_inv _ _ _ _ Hu Hs) as [-> _].
  destruct (dij_run_min Hmin Hnn) as (a & g & js & p & HA & HC & HD & HO).
  destruct dij_run_any as (a2 & g2 & js2 & p2 & HA2 & HB & _). rewrite HA in HA2. injection HA2 as <- <-.
  unfold run_dijkstra. cbn [weights max_path_index num_goals na gd loaded]. rewrite HA. cbn [bind]. rewrite HC. cbn [bind].
  rewrite (path_cost_picks sq_acc n w data Hw Hu a js p HB HD). cbn [bind].
  eexists. exists js, p. split; [reflexivity|]. split; [|auto]. eapply get_path_ok; eauto.
Qed.
End Q.
End Dij.

(** ** termination, from any labels *)
Lemma count_cfresh : count_nodes (fresh data : narr K D) = length (concat data).
Proof.
  assert (H1 : forall l : narr K D, count_nodes l = list_sum (map (@length _) l)).
  { induction l as [|c l IH]; [reflexivity|]. unfold count_nodes in *. simpl. congruence. }
  assert (H2 : forall l : list (list D), length (concat l) = list_sum (map (@length _) l)).
  { induction l as [|c l IH]; [reflexivity|]. simpl. rewrite app_length. congruence. }
  rewrite H1, H2. f_equal. apply nth_ext with (d := 0) (d' := 0).
  - rewrite !map_length. apply fresh_length.
  - intros i _. change 0 with (@length (node K D) []) at 1. change 0 with (@length D []). rewrite !map_nth.
    rewrite fresh_nth, cmk_col_length. reflexivity.
Qed.
Lemma count_cshape (a : narr K D) : cshape data a -> count_nodes (start_column a 0) = length (concat data).
Proof.
  intros (S1 & S2 & S3). rewrite (count_nodes_same (fresh data)); [apply count_cfresh| |].
  - rewrite length_start_column, fresh_length; auto.
  - intros i. rewrite collen_start_column. auto.
Qed.
Lemma bfs_any (a : narr K D) fuel : cshape data a -> length (concat data) <= fuel ->
  exists a', bfs_loop (cexpand sq_acc w fifo_push) fuel (start_column a 0) (col_refs (start_column a 0) 0) = Ok a' /\ cshape data a'.
Proof.
  intros Hs Hf.
  destruct (bfs_rule (fun c x => cost2 sq_acc w x c) ct all_edges (length data) (cexpand sq_acc w fifo_push)) with
    (I := fun (_ : narr K D) (_ _ : list ref) => True) (fuel := fuel) (na := start_column a 0) (P := @nil ref)
    (q := col_refs (start_column a 0) 0) as (a' & P' & HA & _ & _ & _ & H1 & H2 & H3); auto.
  - intros. eapply (cexpand_fifo sq_acc n w Hw); eauto.
  - apply wfd_start. apply (cshape_wfd sq_acc n w data Hw Hu); auto.
  - apply distinct_start.
  - simpl. rewrite Nat.add_0_r. etransitivity; [|exact Hf]. apply Nat.eq_le_incl.
    apply count_cshape; auto.
  - exists a'. split; [exact HA|]. destruct Hs as (S1 & S2 & S3).
    split; [rewrite H2, length_start_column; auto|]. split.
    + intros i. rewrite H1, collen_start_column. auto.
    + eapply same_keys_trans; [exact S3|]. eapply same_keys_trans; [apply same_keys_start|exact H3].
Qed.

Lemma dij_any (pq : pqueue K F) (a : narr K D) maxp g fuel : pq_ok pq -> cshape data a -> length (concat data) <= fuel ->
  exists a' g', dij_loop sq_acc pq w maxp fuel (start_column a 0)
    (fold_left (fun q r => pq_push pq (start_column a 0) q r) (col_refs (start_column a 0) 0) []) g = Ok (a', g').
Proof.
  intros Hpq Hs Hf.
  pose proof (dij_start_distinct pq a Hpq) as Hq0. set (q0 := fold_left _ _ _) in *.
  destruct (dij_rule sq_acc n w Hw pq Hpq maxp (length data) (fun _ _ _ _ => True)) with (fuel := fuel)
    (a := start_column a 0) (P := @nil ref) (q := q0) (g := g) as (a' & P' & q' & g' & HA & _); auto.
  - apply wfd_start. apply (cshape_wfd sq_acc n w data Hw Hu); auto.
  - eapply distinct_perm; [exact Hq0|]. apply distinct_start.
  - rewrite (count_cshape a Hs). simpl. lia.
  - eauto.
Qed.

(** ** histories *)
Record same_graph (s : cgraph K F) : Prop := {
  sg_gd : gd s = data; sg_shape : cshape data (na s); sg_w : weights s = w; sg_max : max_path_index s = length data - 1 }.

Lemma exec_same (Hne : data <> []) (pq : pqueue K F) s o s' : pq_ok pq -> same_graph s -> cexec pq s o = Ok s' -> same_graph s'.
Proof.
  intros Hpq [H1 H2 H3 H4] H. destruct o; cbn [cexec] in H.
  - unfold run_bfs in H. rewrite H3 in H.
    assert (Hb : exists a, multi_source_bfs sq_acc w (na s) = Ok a /\ cshape data a).
    { unfold multi_source_bfs. destruct (na s) as [|c0 a0] eqn:Ea.
      { destruct H2 as (Hl & _). destruct data; [congruence|discriminate]. }
      rewrite <- Ea in *. apply bfs_any; auto. rewrite (count_cshape (na s)); auto. }
    destruct Hb as (a & Ha & Hs). rewrite Ha in H. cbn [bind] in H.
    destruct (get_path_nodes true a) as [l| |]; cbn [bind] in H; try discriminate.
    destruct (path_cost sq_acc w a l); cbn [bind] in H; try discriminate. injection H as <-.
    constructor; auto.
  - unfold run_dijkstra in H. rewrite H3 in H.
    destruct (dij_total sq_acc n w data Hw Hu Hne pq Hpq (max_path_index s) (na s) (num_goals s) H2) as (a & g & Ha & Hs).
    rewrite Ha in H. cbn [bind] in H.
    destruct (get_path_nodes true a) as [l| |]; cbn [bind] in H; try discriminate.
    destruct (path_cost sq_acc w a l); cbn [bind] in H; try discriminate. injection H as <-.
    constructor; auto.
  - unfold creset in H. rewrite (creset_fresh data (na s) H2) in H.
    destruct (fresh_ne (K := K) data Hne) as (c0 & a0 & Ef). rewrite Ef in H. rewrite <- Ef in H. injection H as <-.
    constructor; cbn [gd na weights max_path_index]; auto using cshape_fresh. rewrite fresh_length. auto.
  - destruct (get_path n0 s); cbn [bind] in H; try discriminate. injection H as <-. constructor; auto.
Qed.

Lemma reset_same (Hne : data <> []) s : same_graph s ->
  exists c f, creset s = Ok (mkCG data (fresh data) f c (length (nth (length data - 1) data [])) (length data - 1) w).
Proof.
  intros [H1 H2 H3 H4]. unfold creset. rewrite (creset_fresh data (na s) H2).
  destruct (fresh_ne (K := K) data Hne) as (c0 & a0 & Ef). rewrite Ef, <- Ef, fresh_length, H1, H3, fresh_nth, cmk_col_length. eauto.
Qed.

Lemma history_reset (pq : pqueue K F) s ops s1 : pq_ok pq -> load f1 n data ow = Ok s -> foldM (cexec pq) ops s = Ok s1 ->
  exists s2, creset s1 = Ok s2 /\ run_bfs sq_acc s2 = run_bfs sq_acc s /\
    forall pq', run_dijkstra sq_acc pq' s2 = run_dijkstra sq_acc pq' s.
Proof.
  intros Hpq Hs Hops. destruct (load_inv _ _ _ _ Hu Hs) as [-> Hne].
  assert (Hsame : same_graph s1).
  { assert (H0 : same_graph (loaded f1 n data ow)) by (constructor; cbn [loaded gd na weights max_path_index]; auto; apply cshape_fresh).
    revert H0 Hops. generalize (@loaded K F f1 n data ow). induction ops as [|o ops IH]; intros s H0 H; cbn [foldM] in H.
    - congruence.
    - destruct (cexec pq s o) as [s'| |] eqn:E; cbn [bind] in H; try discriminate.
      apply (IH s'); auto. eapply exec_same; eauto. }
  destruct (reset_same Hne s1 Hsame) as (c & f & Hr). rewrite Hr. eexists. split; [reflexivity|]. split; auto.
Qed.

(** ** init called twice *)
Lemma nth_double k : k < length data + length data ->
  nth k (to_node_array 0 data (fresh data)) [] = (cmk_col k 0 (nth k data []) ++ cmk_col k 0 (nth k data []) : list (node K D)).
Proof.
  intros Hk. rewrite to_na_nth by lia. rewrite fresh_nth, Nat.sub_0_r. cbn [Nat.add Nat.leb andb].
  destruct (Nat.ltb_spec k (length data)); auto.
  rewrite (nth_overflow data) by lia. reflexivity.
Qed.
Lemma lk_double i j v : lk (to_node_array 0 data (fresh data) : narr K D) i j = Some v ->
  n_pi v = i /\ In (n_data v) (nth i data []).
Proof.
  rewrite lk_nth. intros H.
  assert (Hi : i < length data + length data).
  { destruct (lt_dec i (length data + length data)); auto. rewrite nth_overflow in H.
    - destruct j; discriminate.
    - rewrite to_na_length, fresh_length. lia. }
  rewrite nth_double in H by auto. apply nth_error_In in H.
  assert (Hin : In v (cmk_col i 0 (nth i data []))) by (apply in_app_iff in H; tauto).
  apply In_nth_error in Hin. destruct Hin as (k & Hk). rewrite nth_cmk_col in Hk.
  destruct (nth_error (nth i data []) k) as [x|] eqn:E; cbn [option_map] in Hk; [|discriminate]. injection Hk as <-.
  simpl. split; auto. eapply nth_error_In; eauto.
Qed.

Lemma double_init s : load f1 n data ow = Ok s -> exists s2, init f1 s = Ok s2 /\ run_bfs sq_acc s2 = Raise NullDeref.
Proof.
  intros Hs. destruct (load_inv _ _ _ _ Hu Hs) as [-> Hne].
  assert (Hrow : exists row col rest, data = (row :: col) :: rest).
  { destruct data as [|[|row col] rest]; [congruence| |eauto]. exfalso.
    unfold load in Hs. rewrite load_rows in Hs by auto. cbn [bind] in Hs.
    destruct ow; unfold set_weights, init in Hs; cbn [gd na app cnew] in Hs;
    destruct (to_node_array 0 ([] :: rest) []); discriminate. }
  destruct Hrow as (row & col & rest & Ed).
  assert (Hn : length row = n).
  { unfold uniform in Hu. rewrite Ed in Hu. inversion Hu; subst. inversion H1; auto. }
  set (a := to_node_array 0 data (fresh data) : narr K D).
  assert (La : length a = length data + length data) by (unfold a; rewrite to_na_length, fresh_length; auto).
  assert (Hpos : 0 < length data) by (rewrite Ed; simpl; lia).
  unfold init, loaded. cbn [gd na weights shortest_path_cost]. fold a.
  destruct a as [|c0 a0] eqn:Ea; [simpl in La; lia|]. rewrite <- Ea in *.
  replace (match data with (row0 :: _) :: _ => _ | _ => _ end) with
    (Ok (mkCG data a false (cinf : K) (length (nth (length a - 1) a [])) (length a - 1) w)).
  2:{ rewrite Ed. rewrite Hn. rewrite (eff_weights_length f1 n ow), Nat.eqb_refl. reflexivity. }
  eexists. split; [reflexivity|].
  unfold run_bfs. cbn [weights na].
  assert (Hb : exists a', multi_source_bfs sq_acc w a = Ok a' /\ length a' = length a /\ forall i, collen a' i = collen a i).
  { unfold multi_source_bfs. rewrite Ea, <- Ea.
    destruct (bfs_rule (fun c x => cost2 sq_acc w x c) ct all_edges (length a) (cexpand sq_acc w fifo_push)) with
      (I := fun (_ : narr K D) (_ _ : list ref) => True) (fuel := count_nodes (start_column a 0)) (na := start_column a 0) (P := @nil ref)
      (q := col_refs (start_column a 0) 0) as (a' & P' & HA & _ & _ & _ & H1 & H2 & H3); auto.
    - intros. eapply (cexpand_fifo sq_acc n w Hw); eauto.
    - apply wfd_start. split; [auto|]. split.
      + intros i j v Hv. apply (lk_double i j v) in Hv. tauto.
      + intros i j j' v v' Hv Hv'. apply (lk_double _ _ _) in Hv, Hv'.
        assert (Hlen : forall i x, In x (nth i data []) -> length x = n).
        { intros i' x Hx. unfold uniform in Hu. rewrite Forall_forall in Hu. destruct (lt_dec i' (length data)) as [Hl|Hl].
          - specialize (Hu _ (nth_In data [] Hl)). rewrite Forall_forall in Hu. auto.
          - rewrite nth_overflow in Hx by lia. destruct Hx. }
        apply cost2_ok; rewrite (eff_weights_length f1 n ow); [apply (Hlen (S i))|apply (Hlen i)]; tauto.
    - apply distinct_start.
    - simpl; lia.
    - exists a'. split; [exact HA|]. split; [rewrite H2; apply length_start_column|].
      intros i. rewrite H1. apply collen_start_column. }
  destruct Hb as (a' & Hb & L' & C'). rewrite Hb. cbn [bind].
  assert (Hlast : nth (length a' - 1) a' [] = []).
  { specialize (C' (length a' - 1)). rewrite !collen_nth in C'.
    replace (nth (length a' - 1) a []) with (@nil (node K D)) in C'.
    2:{ unfold a. rewrite nth_double by lia. rewrite (nth_overflow data) by lia. reflexivity. }
    destruct (nth (length a' - 1) a' []); [auto|discriminate]. }
  unfold get_path_nodes. destruct a' as [|c1 a1] eqn:Ea'; [simpl in L'; lia|]. rewrite <- Ea' in *.
  rewrite Hlast. reflexivity.
Qed.
End L.

Lemma weights_used n data (w : list F) : uniform n data -> forall s : cgraph K F, load f1 n data (Some w) = Ok s ->
  (length w = n -> weights s = w) /\ (length w <> n -> weights s = repeat f1 n /\ load f1 n data None = Ok s).
Proof.
  intros Hu s Hs. destruct (load_inv _ _ _ _ Hu Hs) as [E Hne]. subst s. cbn [weights loaded eff_weights]. split; intros Hl.
  - rewrite Hl, Nat.eqb_refl. reflexivity.
  - apply Nat.eqb_neq in Hl. rewrite Hl. split; auto.
    destruct data as [|[|row col] rest]; [congruence| |].
    + exfalso. unfold load in Hs. rewrite load_rows in Hs by auto. cbn [bind] in Hs.
      unfold set_weights, init in Hs; cbn [gd na app cnew] in Hs;
      destruct (to_node_array 0 ([] :: rest) []); discriminate.
    + rewrite (load_ok f1 n) by eauto. unfold loaded, eff_weights. rewrite Hl. reflexivity.
Qed.
End M.
