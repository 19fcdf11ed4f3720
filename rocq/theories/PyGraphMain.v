(** * The pygraph.py theorems in the form of the property list. *)
From Coq Require Import List Arith Lia Bool ZArith Reals.
From Verif Require Import PyBase Cost SpecPath GraphCommon GraphWalks PyGraph PyGraphProofs PyGraphSeg PyCost.
Import ListNotations.
Local Open Scope nat_scope.

Section M.
Context (K : CostStruct) (D : Type) (cost : D -> D -> res K) (ct : D -> D -> K).

Lemma gsp_nil r : get_shortest_path cost [] <> Ok r.
Proof. discriminate. Qed.
Lemma gpp_nil m r : get_shortest_partial_path cost [] m <> Ok r.
Proof. discriminate. Qed.

Section D1.
Context (data : list (list D)).
Context (Hcost : forall x y, adjacent data x y -> cost x y = Ok (ct x y)).

Lemma gsp_inv path c : get_shortest_path cost data = Ok (SpOk path c) ->
  (exists js, picks data js path) /\ walk_cost ct path = c /\ clt c cinf = true /\
      forall js p, picks data js p -> cle c (walk_cost ct p).
Proof.
  intros H. assert (Hne : data <> []) by (intros E; rewrite E in H; eapply gsp_nil; eauto).
  destruct (get_shortest_path_spec cost ct data Hne Hcost) as (r & Hr & Hs).
  rewrite H in Hr. injection Hr as <-. exact Hs.
Qed.
End D1.

Lemma pg_optimal data path c :
  (forall x y, adjacent data x y -> cost x y = Ok (ct x y)) ->
  get_shortest_path cost data = Ok (SpOk path c) ->
  forall js p, picks data js p -> cle c (walk_cost ct p).
Proof. intros Hc H. apply (gsp_inv data Hc) in H. tauto. Qed.

Lemma pg_agree data path c :
  (forall x y, adjacent data x y -> cost x y = Ok (ct x y)) ->
  get_shortest_path cost data = Ok (SpOk path c) ->
  (exists js, picks data js path) /\ walk_cost ct path = c.
Proof. intros Hc H. apply (gsp_inv data Hc) in H. tauto. Qed.

Lemma pg_fails_iff data : data <> [] ->
  (forall x y, adjacent data x y -> cost x y = Ok (ct x y)) ->
  exists r, get_shortest_path cost data = Ok r /\
    (r = SpFail <-> forall js p, picks data js p -> clt (walk_cost ct p) cinf = false).
Proof.
  intros Hne Hc. destruct (get_shortest_path_spec cost ct data Hne Hc) as (r & Hr & Hs).
  exists r. split; auto. destruct r as [|path c]; [tauto|]. split; [discriminate|]. intros H.
  destruct Hs as ((js & Hp) & <- & Hf & _). rewrite (H _ _ Hp) in Hf. discriminate.
Qed.

Lemma picks_no_empty (data : list (list D)) : forall js p, picks data js p -> ~ In [] data.
Proof.
  induction data as [|c data IH]; intros js p H Hin; [destruct Hin|].
  destruct js as [|j js], p as [|x p]; simpl in H; try tauto.
  destruct H as [H1 H2]. destruct Hin as [->|Hin]; [destruct j; discriminate|eapply IH; eauto].
Qed.

Lemma pg_empty_column data : In [] data ->
  (forall x y, adjacent data x y -> cost x y = Ok (ct x y)) ->
  get_shortest_path cost data = Ok SpFail.
Proof.
  intros Hin Hc. destruct (pg_fails_iff data) as (r & Hr & Hs); auto.
  - intros ->. destruct Hin.
  - rewrite Hr. f_equal. apply Hs. intros js p Hp. exfalso. eapply picks_no_empty; eauto.
Qed.

Lemma pg_limit data m path c :
  (forall x y, adjacent data x y -> cost x y = Ok (ct x y)) ->
  get_shortest_partial_path cost data m = Ok (PpOk path c) ->
  (exists js, picks data js path) /\ walk_cost ct path = c /\ steps_below ct m path /\
  forall js p, picks data js p -> steps_below ct m p -> cle c (walk_cost ct p).
Proof.
  intros Hc H. assert (Hne : data <> []) by (intros E; rewrite E in H; eapply gpp_nil; eauto).
  destruct (partial_path_spec cost ct data Hne Hc m) as (r & Hr & Hs).
  rewrite H in Hr. injection Hr as <-. tauto.
Qed.

Lemma pg_partial data m : data <> [] ->
  (forall x y, adjacent data x y -> cost x y = Ok (ct x y)) ->
  (forall js p, picks data js p -> steps_below ct m p -> clt (walk_cost ct p) cinf = false) ->
  (get_shortest_partial_path cost data m = Ok PpStuck /\
   forall t js p, 1 <= t -> t < length data -> picks (firstn (S t) data) js p -> steps_below ct m p ->
     clt (walk_cost ct p) cinf = false) \/
  (exists path c i, get_shortest_partial_path cost data m = Ok (PpPartial path c i) /\ 1 <= i /\
   (exists js, picks (firstn (S i) data) js path) /\ walk_cost ct path = c /\ clt c cinf = true /\
   steps_below ct m path /\
   (forall js p, picks (firstn (S i) data) js p -> steps_below ct m p -> cle c (walk_cost ct p)) /\
   forall t js p, i < t -> t < length data -> picks (firstn (S t) data) js p -> steps_below ct m p ->
     clt (walk_cost ct p) cinf = false).
Proof.
  intros Hne Hc Hno. destruct (partial_path_spec cost ct data Hne Hc m) as (r & Hr & Hs).
  destruct r as [|path c i|path c].
  - left. split; auto. apply Hs.
  - right. exists path, c, i. split; auto. tauto.
  - exfalso. destruct Hs as ((js & Hp) & Hw & Hf & Hb & _). rewrite <- Hw, (Hno _ _ Hp Hb) in Hf. discriminate.
Qed.

Lemma pg_reuse data ops m start :
  (forall x y, adjacent data x y -> cost x y = Ok (ct x y)) ->
  run_multi_source_bfs cost m start (fold_left (exec cost) ops (new_graph data)) =
  run_multi_source_bfs cost m start (new_graph data).
Proof. intros Hc. eapply history_independent; eauto. Qed.

Lemma pg_segments_decided (data : list (list D)) m fuel :
  (forall x y, adjacent data x y -> cost x y = Ok (ct x y)) ->
  get_shortest_path_segments cost (length data - 2) data m = OutOfFuel ->
  get_shortest_path_segments cost fuel data m = OutOfFuel.
Proof. intros Hc. eapply segments_decided; eauto. Qed.

Lemma pg_segments_single (data : list (list D)) m fuel js0 p0 :
  3 <= length data -> 1 <= fuel ->
  (forall x y, adjacent data x y -> cost x y = Ok (ct x y)) ->
  picks data js0 p0 -> steps_below ct m p0 -> clt (walk_cost ct p0) cinf = true ->
  exists path c, get_shortest_partial_path cost data m = Ok (PpOk path c) /\
    get_shortest_path_segments cost fuel data m =
      Ok (SegSol {| sg_success := true; sg_path := path; sg_cost := c; sg_single := Some true;
                    sg_split_points := None; sg_extra := None |}).
Proof.
  intros Hl Hf Hc Hp Hb Hw.
  assert (Hne : data <> []) by (intros E; rewrite E in Hl; simpl in Hl; lia).
  destruct (partial_path_spec cost ct data Hne Hc m) as (r & Hr & Hs).
  destruct r as [|path c i|path c].
  - destruct Hs as [Hs _]. rewrite (Hs _ _ Hp Hb) in Hw. discriminate.
  - destruct Hs as (_ & Hi & _ & _ & _ & _ & _ & Hs).
    rewrite (Hs (length data - 1) js0 p0) in Hw; [discriminate|lia|lia| |auto].
    rewrite firstn_last; auto.
  - exists path, c. split; auto. apply segments_single; auto.
Qed.

(** ** a cost function that may raise *)
Definition total_cost_fn (x y : D) : K := match cost x y with Ok c => c | _ => czero end.
Definition tcf (x y : D) : res K := Ok (total_cost_fn x y).

Definition raises_or {A} (r r' : res A) : Prop := (exists e, r = Raise e) \/ r = r'.

Lemma reachable_tot (Hnf : forall x y, cost x y <> OutOfFuel) na m n : forall nb,
  raises_or (reachable cost na m n nb) (reachable tcf na m n nb).
Proof.
  induction nb as [|r nb IH]; cbn [reachable]; [right; auto|].
  destruct (deref na r) as [v|e|]; cbn [bind]; [|left; eauto|right; auto].
  pose proof (Hnf (n_data n) (n_data v)) as Hn. unfold tcf, total_cost_fn in *.
  destruct (cost (n_data n) (n_data v)) as [c|e|]; cbn [bind]; [|left; eauto|congruence].
  destruct IH as [(e & ->)| -> ]; [left; cbn [bind]; eauto|right; auto].
Qed.

Lemma relax_tot (Hnf : forall x y, cost x y <> OutOfFuel) cur st nb :
  raises_or (relax1 cost fifo_push cur st nb) (relax1 tcf fifo_push cur st nb).
Proof.
  destruct st as [na q]. unfold relax1.
  destruct (deref na cur) as [nc|e|]; cbn [bind]; [|left; eauto|right; auto].
  destruct (deref na nb) as [v|e|]; cbn [bind]; [|left; eauto|right; auto].
  pose proof (Hnf (n_data nc) (n_data v)) as Hn. unfold tcf, total_cost_fn in *.
  destruct (cost (n_data nc) (n_data v)) as [c|e|]; cbn [bind]; [|left; eauto|congruence].
  right; auto.
Qed.

Lemma fold_tot {A S} (f g : S -> A -> res S) : (forall s a, raises_or (f s a) (g s a)) ->
  forall l s, raises_or (foldM f l s) (foldM g l s).
Proof.
  intros H. induction l as [|a l IH]; intros s; cbn [foldM]; [right; auto|].
  destruct (H s a) as [(e & ->)| -> ]; [left; cbn [bind]; eauto|].
  destruct (g s a); cbn [bind]; auto; right; auto.
Qed.

Lemma expand_tot (Hnf : forall x y, cost x y <> OutOfFuel) L m na q cur :
  raises_or (expand cost L m na q cur) (expand tcf L m na q cur).
Proof.
  unfold expand. destruct (deref na cur) as [nc|e|]; cbn [bind]; [|left; eauto|right; auto].
  destruct (get_neighbours L na nc) as [nb|e|]; cbn [bind]; [|left; eauto|right; auto].
  destruct (reachable_tot Hnf na m nc nb) as [(e & ->)| -> ]; [left; cbn [bind]; eauto|].
  destruct (reachable tcf na m nc nb) as [l|e|]; cbn [bind]; [|left; eauto|right; auto].
  apply fold_tot. intros; apply relax_tot; auto.
Qed.

Lemma loop_tot (Hnf : forall x y, cost x y <> OutOfFuel) L m : forall fuel na q,
  raises_or (bfs_loop (expand cost L m) fuel na q) (bfs_loop (expand tcf L m) fuel na q).
Proof.
  induction fuel as [|fuel IH]; intros na [|cur q]; cbn [bfs_loop]; try (right; reflexivity).
  destruct (expand_tot Hnf L m na q cur) as [(e & ->)| -> ]; [left; cbn [bind]; eauto|].
  destruct (expand tcf L m na q cur) as [[na' q']|e|]; cbn [bind]; auto; right; auto.
Qed.

Lemma run_never_stuck (data : list (list D)) m start : (forall x y, cost x y <> OutOfFuel) ->
  run_multi_source_bfs cost m start (new_graph data) <> OutOfFuel.
Proof.
  intros Hnf. destruct (le_lt_dec (length data) start) as [Hle|Hlt].
  - rewrite (run_bad_start cost data m start (new_graph data)); [discriminate|apply shape_ok_fresh|exact Hle].
  - assert (Ht : forall x y, adjacent data x y -> tcf x y = Ok (total_cost_fn x y)) by reflexivity.
    destruct (run_spec tcf total_cost_fn data Ht m start (new_graph data)) as (g' & H & _); [reflexivity|apply shape_ok_fresh|exact Hlt|].
    unfold run_multi_source_bfs in *.
    destruct (nth_error (g_na (reset (new_graph data))) start); [|discriminate].
    set (na0 := start_column (g_na (reset (@new_graph K D data))) start) in *.
    destruct (loop_tot Hnf (g_path_length (reset (@new_graph K D data))) m (count_nodes na0) na0 (col_refs na0 start))
      as [(e & E)|E]; rewrite E.
    + discriminate.
    + rewrite H. discriminate.
Qed.
End M.

Lemma pg_optimal_arccos data n path c :
  Forall (Forall (fun u => length u = n)) data ->
  get_shortest_path py_cost data = Ok (SpOk path c) ->
  forall js p, picks data js p -> cle c (walk_cost arc_cost p).
Proof. intros H. apply pg_optimal. eapply py_cost_total; eauto. Qed.

Lemma pg_segments_diverge : exists (data : list (list nat)) (cost : nat -> nat -> res ZCost) (m : ZCost),
  data <> [] /\ Forall (fun col => col <> []) data /\
  (forall x y, exists c, cost x y = Ok c) /\
  forall fuel, get_shortest_path_segments cost fuel data m = OutOfFuel.
Proof.
  exists seg_data, seg_cost, (Some 1%Z : ZCost). split; [discriminate|].
  split; [repeat constructor; discriminate|]. split; [intros; eexists; reflexivity|]. exact seg_diverges.
Qed.
