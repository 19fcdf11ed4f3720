(** * What the scripts of examples/ do. *)
From Coq Require Import String Reals Lra Lia Psatz List Bool Arith ZArith.
From Verif Require Import PyBase Cost SpecPath GraphCommon CppGraph CppGraphProofs CppSearch CppHeap CppMain CppFinal CppExamples Mat Util UtilProofs HaltonProofs Geometry GeometryProofs Robot RobotProofs RobotForms Ik IkProofs KukaProofs RailProofs Path PathProofs Planning PlanningProofs PlanningCart Resources ResourcesProofs TaskProofs Pipeline PipelineProofs PipelineExamples Motion MotionKuka LocalIk Margin GridCover Resolution Turn Uniform UniformHalton Iterative IterativeProofs IterativeExamples OptScriptProofs PyGraph PyGraphProofs PyGraphMain PyCost PyCostProofs Io Tasks TasksProofs Gui TorchProofs IncAgain Scripts ScriptsPose ScriptsProofs.
Import ListNotations.
Local Open Scope R_scope.
Local Notation PFree := Pipeline.PFree.

(** ** quat_graph.py *)
(** u holds the four numbers of the quaternion made of one of the first ten rows *)
Definition drawn (rnd : list (list R)) (u : list R) : Prop := exists row q, In row (firstn 10 rnd) /\ row_quat row q /\ u = quat_row q.
Lemma quat_column ypr fuel rnd : (10 <= length rnd)%nat -> Forall unit_row rnd ->
  exists qs, sample_SO3 ypr fuel rnd 10 "quat" "random" = Ok (SQuat qs) /\ length qs = 10%nat /\ Forall (fun q => qnorm2 q = 1) qs /\ forall u, In u (map quat_row qs) <-> drawn rnd u.
Proof.
  intros L U. unfold sample_SO3. cbn [String.eqb Ascii.eqb Bool.eqb]. destruct (Nat.ltb_spec (length rnd) 10); [lia|]. cbn [bind].
  assert (U' : Forall unit_row (firstn 10 rnd)). { rewrite Forall_forall in *. intros r I. apply U. rewrite <- (firstn_skipn 10 rnd). apply in_or_app. auto. }
  destruct (quats_of_rows _ U') as (qs & E & Lq & Un). rewrite E. cbn [bind]. exists qs. split; auto. split; [rewrite Lq, firstn_length; lia|]. split; auto.
  apply row_quats in E. intros u. unfold drawn. rewrite in_map_iff. clear - E. split.
  - intros (q & <- & I). induction E as [|row q' rows qs Hq _ IH]; [destruct I|]. destruct I as [->|I]; [exists row, q; split; [left; auto|]; auto|]. destruct (IH I) as (row' & q'' & A & B). exists row', q''. split; [right; auto|auto].
  - intros (row & q & I & Hq & ->). exists q. split; auto. induction E as [|row' q' rows qs Hq' _ IH]; [destruct I|]. destruct I as [->|I]; [left|right; auto]. destruct Hq as (a & b & c & E1 & ->), Hq' as (a' & b' & c' & E2 & ->). rewrite E1 in E2. injection E2 as <- <- <-. reflexivity.
Qed.
Lemma quat_graph_ok ypr fuel draws : draws <> [] -> Forall (fun rnd => (10 <= length rnd)%nat /\ Forall unit_row rnd) draws ->
  exists x p, quat_graph ypr fuel draws = Ok (SpOk (x :: p) (Some (way (x :: p)) : RCost)) /\ Forall2 drawn draws (x :: p) /\
    arc x (last p x) <= way (x :: p) <= INR (length draws - 1) * (PI / 2) /\ forall p', Forall2 drawn draws p' -> way (x :: p) <= way p'.
Proof.
  intros N0 H. assert (C : exists data, quat_columns ypr fuel draws = Ok data /\ length data = length draws /\ Forall (fun c => c <> []) data /\ Forall (Forall (unit_vec 4)) data /\ forall p, Forall2 (fun c u => In u c) data p <-> Forall2 drawn draws p).
  { clear N0. induction H as [|rnd draws [L U] _ (data & E & Ld & Ne & Un & Pk)]; [exists []; split; [reflexivity|]; repeat (split; [constructor|]); intros p; split; intros K; inversion K; constructor|].
    destruct (quat_column ypr fuel rnd L U) as (qs & Es & Lq & Uq & Dr). exists (map quat_row qs :: data). unfold quat_columns in *. cbn [mapM]. rewrite Es. cbn [bind]. rewrite E. split; [reflexivity|]. split; [cbn; congruence|]. split; [constructor; auto; destruct qs; [discriminate|discriminate]|]. split.
    - constructor; auto. apply Forall_map. eapply Forall_impl; [|exact Uq]. intros q Hq. split; [reflexivity|]. unfold qnorm2 in Hq. cbn [quat_row fold_right]. rewrite <- Hq. ring.
    - intros p. split; intros K; inversion K as [|? u ? p1 K1 K2]; subst; constructor; try (apply Pk; auto); apply Dr; auto. }
  destruct C as (data & E & Ld & Ne & Un & Pk). assert (D0 : data <> []) by (intros Z; subst data; destruct draws; [congruence|discriminate]).
  destruct (arc_search 4 data D0 Ne Un) as (x & p & Es & Lp & _ & B & M). exists x, p. unfold quat_graph. rewrite E. cbn [bind]. split; [exact Es|]. split; [|split].
  - apply Pk. destruct (@pg_agree RCost _ py_cost arc_cost data (x :: p) (Some (way (x :: p)))) as ((js & P) & _); [|exact Es|eapply picks_In; eauto].
    apply (py_cost_total data 4). eapply Forall_impl; [|exact Un]. intros c. apply Forall_impl. intros u [Lu _]. exact Lu.
  - rewrite <- Ld. exact B.
  - intros p' F. apply Pk in F. apply In_picks in F. destruct F as (js & F). apply (M js p' F).
Qed.

(** ** tool_first_cc.py *)
Lemma tool_first_raises r : tool_first_cc r = Raise (match r_links r with [] => IndexError | _ => AttributeError end).
Proof.
  unfold tool_first_cc, py_last. destruct (r_links r) as [|l ls]; [reflexivity|]. cbn [rev]. destruct (rev ls ++ [l]) eqn:E; [|reflexivity]. destruct (rev ls); discriminate.
Qed.
Lemma combine_seq_nth {A} (l : list A) : forall s k i x, nth_error (combine (seq s (length l)) l) k = Some (i, x) -> i = (s + k)%nat /\ nth_error l k = Some x.
Proof. induction l as [|a l IH]; intros s [|k] i x H; cbn in H; try discriminate; [injection H as <- <-; split; [lia|reflexivity]|]. apply IH in H. destruct H as [-> H]. split; [lia|exact H]. Qed.
Lemma line_point N draws i tp : nth_error (free_line N draws) i = Some tp -> (i < N)%nat /\ exists y, -0.2 <= y <= 0.2 /\ In [0.8; y; 0.2] (path_ori_free N) /\ tp = PFree [0.8; y; 0.2] (draws i).
Proof.
  unfold free_line. rewrite nth_error_map. assert (L : length (path_ori_free N) = N) by (unfold path_ori_free; rewrite map_length; apply linspace_length). rewrite <- L at 1.
  destruct (nth_error (combine _ (path_ori_free N)) i) as [[j p]|] eqn:E; [|discriminate]. intros H. injection H as <-. cbn [fst snd]. apply combine_seq_nth in E. destruct E as [-> E]. cbn [plus].
  split; [rewrite <- L; apply nth_error_Some; congruence|]. apply nth_error_In in E. destruct (line_points N p E) as (y & B & ->). exists y. auto.
Qed.
Lemma line_free N draws : Forall is_free (free_line N draws).
Proof. apply Forall_map. apply Forall_forall. intros [i p] _. exact I. Qed.
Lemma line_length N draws : length (free_line N draws) = N.
Proof. unfold free_line, path_ori_free. rewrite map_length, combine_length, seq_length, map_length, linspace_length. lia. Qed.

(** the scenes *)
Lemma floor_low : low floor /\ rigid_coll floor.
Proof.
  split; [|apply Forall_cons; [apply pose_x_rigid|apply Forall_nil]]. intros x (s & T & ([|[|k]] & E1 & E2) & B); try discriminate E1. injection E1 as <-. injection E2 as <-. cbn [place] in B.
  rewrite <- (tmul_1_l (pose_x 0 0.8 0 0)) in B. apply box_local in B; [|apply rigid_eye]. destruct B as ([mx my mz] & -> & B1 & B2 & B3). cbn [vx vy vz dx dy dz] in B1, B2, B3. apply Rabs_le_inv in B1. apply Rabs_le_inv in B3. unfold eye4, tapply, mid. munf. lra.
Qed.
Lemma scene1_low : low scene1 /\ rigid_coll scene1.
Proof.
  split; [|apply Forall_cons; [split; cbn; auto; apply rotation_mid|apply Forall_nil]]. intros x (s & T & ([|[|k]] & E1 & E2) & B); try discriminate E1. injection E1 as <-. injection E2 as <-. cbn [place] in B.
  assert (E : table_tf = tmul eye4 (pose_x 0 0.8 0 0.12)). { rewrite tmul_1_l. unfold table_tf, pose_x, mid. rewrite cos_0, sin_0. f_equal; f_equal; lra. }
  rewrite E in B. apply box_local in B; [|apply rigid_eye]. destruct B as ([mx my mz] & -> & B1 & B2 & B3). cbn [vx vy vz dx dy dz table] in B1, B2, B3. apply Rabs_le_inv in B1. apply Rabs_le_inv in B3. unfold eye4, tapply, mid. munf. lra.
Qed.
(** a good row among the draws of every point *)
Lemma line_reachable (t : R) N scene : low scene -> rigid_coll scene -> exists s d, unit_row s /\ 0 < d /\ forall n ypr fuel draws, Forall (pt_ok n) (free_line N draws) ->
  (forall i, (i < N)%nat -> exists row, In row (firstn n (draws i)) /\ joints_within d s row) -> Forall (PipelineProofs.reachable 0.18 0.6 0.62 kuka_object scene (pt_samples ypr fuel n)) (free_line N draws).
Proof.
  intros Lw Rc. destruct (line_rows t) as (s & Us & H). destruct (H scene (map (fun p => nth 1 p 0) (path_ori_free N)) Lw Rc) as (d & Hd & D).
  { apply Forall_map, Forall_forall. intros p Ip. destruct (line_points N p Ip) as (y & B & ->). exact B. }
  exists s, d. split; auto. split; auto. intros n ypr fuel draws P R. apply Forall_forall. intros tp It. destruct (In_nth_error _ _ It) as (i & Ei). destruct (line_point N draws i tp Ei) as (Li & y & B & Iy & ->).
  destruct (R i Li) as (row & Ir & J). rewrite Forall_forall in P. specialize (P _ It). assert (Ur : unit_row row). { destruct P as (_ & _ & U). rewrite Forall_forall in U. apply U. rewrite <- (firstn_skipn n (draws i)). apply in_or_app. auto. }
  destruct (D y row) as (q1 & q2 & q3 & q4 & q5 & q6 & E & K); auto; [apply in_map_iff; exists [0.8; y; 0.2]; split; [reflexivity|exact Iy]|].
  exists (map (row_frame (V3 0.8 y 0.2)) (firstn n (draws i))), (row_frame (V3 0.8 y 0.2) row), q1, q2, q3, q4, q5, q6. split; [apply free_samples_rows; exact P|]. split; [apply in_map; exact Ir|]. split; auto.
Qed.
Section Tool.
Context (prim : shape -> mat3 -> vec3 -> shape -> mat3 -> vec3 -> bool) (to32 : R -> R) (pq : pqueue RCost R) (X : exact_prim prim) (Q : pq_ok pq) (ypr : quat -> vec3) (fuel : nat).
Notation sound scene tp row := (exists q T, row = map to32 q /\ allowed tp T /\ reaches 0.6 0.62 (k_rob kuka_object) q T /\ clear (k_rob kuka_object) scene q).
(** columns, guard, dijkstra *)
Lemma guarded n scene path : path <> [] -> rigid_coll scene -> Forall (pt_ok n) path -> exists r,
  (C <- snd (kuka_columns prim to32 (pt_samples ypr fuel n) scene path kuka_object) ;;
   if forallb (fun e => negb (Nat.eqb (qlen e) 0)) C then
     r <- Planning.get_shortest_path 1 (K := RCost) rsq pq to32 C "dijkstra" None ;; match r with GspOk rows _ => Ok (Some rows) | GspFail => Raise KeyError end
   else Ok None) = Ok r /\
  match r with None => Exists (fun tp => forall q, ~ candidate prim kuka_object scene (pt_samples ypr fuel n) tp q) path
             | Some rows => Forall2 (fun tp row => sound scene tp row) path rows end.
Proof.
  intros Hp Rc P. rewrite (kuka_columns_exact prim to32 0.18 0.6 0.62 0.115 default_ne kuka_object kuka_object_ok).
  assert (ED : exists D, mapM (pt_samples ypr fuel n) path = Ok D). { apply GuiProofs.mapM_total. eapply Forall_impl; [|exact P]. intros tp Htp. destruct (pt_allowed ypr fuel n tp Htp) as (Ts & E & _). eauto. }
  destruct ED as (D & ED). rewrite ED. cbn [bind]. pose proof (proj1 (mapM_Ok_Forall2 _ _ _) ED) as F.
  destruct (forallb _ _) eqn:Ef.
  - assert (C : Forall (fun tp => exists q, candidate prim kuka_object scene (pt_samples ypr fuel n) tp q) path).
    { rewrite forallb_forall in Ef. clear - F Ef. induction F as [|tp Ts path D E _ IH]; constructor.
      - specialize (Ef (entry_of to32 (flat_map (kuka_free prim kuka_object scene) Ts)) (or_introl eq_refl)). destruct (flat_map (kuka_free prim kuka_object scene) Ts) as [|q l] eqn:El; [discriminate|].
        exists q. assert (I : In q (flat_map (kuka_free prim kuka_object scene) Ts)) by (rewrite El; left; auto). apply in_flat_map in I. destruct I as (T & I1 & I2). exists Ts, T. auto.
      - apply IH. intros e Ie. apply Ef. right. exact Ie. }
    destruct (kuka_plan_dijkstra prim to32 0.18 0.6 0.62 0.115 default_ne kuka_object kuka_object_ok scene (pt_samples ypr fuel n) path None Hp C pq Q) as (rows & E & _). cbv zeta in E.
    exists (Some rows). split.
    + rewrite (kuka_plan_eq prim to32 0.18 0.6 0.62 0.115 default_ne kuka_object kuka_object_ok), ED in E. cbn [bind] in E. rewrite E. reflexivity.
    + apply (kuka_plan_sound prim to32 0.18 0.6 0.62 0.115 default_ne kuka_object kuka_object_ok rsq pq ypr fuel n scene path "dijkstra" None rows _ X kuka_object_solid Rc P E).
  - exists None. split; auto. clear - F Ef. induction F as [|tp Ts path D E _ IH]; [discriminate|]. cbn [map forallb] in Ef. apply andb_false_iff in Ef. destruct Ef as [Ef|Ef]; [left|right; auto].
    intros q (Ts' & T & E' & I1 & I2). rewrite E in E'. injection E' as <-. assert (I : In q (flat_map (kuka_free prim kuka_object scene) Ts)) by (apply in_flat_map; eauto). destruct (flat_map _ Ts); [destruct I|discriminate].
Qed.
Lemma tool_first_runs draws : Forall (pt_ok 1000) (free_line 5 draws) -> exists r, tool_first_script prim to32 pq ypr fuel draws = Ok r /\
  match r with None => Exists (fun tp => forall q, ~ candidate prim kuka_object floor (pt_samples ypr fuel 1000) tp q) (free_line 5 draws)
             | Some rows => Forall2 (fun tp row => sound floor tp row) (free_line 5 draws) rows end.
Proof. apply (guarded 1000 floor (free_line 5 draws)); [discriminate|apply floor_low]. Qed.
End Tool.
Lemma tool_first_found (t : R) : exists s d, unit_row s /\ 0 < d /\ forall prim to32 pq ypr fuel draws, exact_prim prim -> pq_ok pq -> Forall (pt_ok 1000) (free_line 5 draws) ->
  (forall i, (i < 5)%nat -> exists row, In row (firstn 1000 (draws i)) /\ joints_within d s row) -> exists rows, tool_first_script prim to32 pq ypr fuel draws = Ok (Some rows).
Proof.
  destruct floor_low as [Lw Rc]. destruct (line_reachable t 5 floor Lw Rc) as (s & d & Us & Hd & H). exists s, d. split; auto. split; auto. intros prim to32 pq ypr fuel draws X Q P R.
  destruct (tool_first_runs prim to32 pq X Q ypr fuel draws P) as ([rows|] & E & K); [eauto|exfalso]. specialize (H 1000%nat ypr fuel draws P R). rewrite Exists_exists in K. destruct K as (tp & I & K). rewrite Forall_forall in H.
  destruct (reachable_candidate prim 0.18 0.6 0.62 0.115 default_ne kuka_object kuka_object_ok floor (pt_samples ypr fuel 1000) tp X kuka_object_solid Rc (H tp I)) as (q & C). exact (K q C).
Qed.

(** ** iterative_grid_refining.py *)
Lemma refine_never prim to32 pq ypr fuel draws r : refine_script prim to32 pq ypr fuel None draws <> Ok r.
Proof.
  unfold refine_script. intros H. destruct (snd (kuka_it_plan _ _ _ _ _ _ _ _ _ _)) as [[|p c costs paths nt]| |] eqn:E; cbn [bind] in H; try discriminate. clear H.
  assert (B : forall m p c costs paths nt, snd (kuka_it_plan prim to32 (K := RCost) rsq pq (cur_samples ypr fuel None) (Some scene1) (free_line 15 draws) 500 (S m) kuka_object) = Ok (ItOk p c costs paths nt) ->
    exists p c costs paths nt, snd (kuka_it_plan prim to32 (K := RCost) rsq pq (cur_samples ypr fuel None) (Some scene1) (free_line 15 draws) 500 1 kuka_object) = Ok (@ItOk RCost R p c costs paths nt)).
  { clear. induction m as [|m IH]; intros p c costs paths nt E; [eauto 6|]. destruct (it_prefix prim to32 0.18 0.6 0.62 0.115 default_ne kuka_object kuka_object_ok _ _ _ _ _ _ _ _ _ _ _ _ E) as (p0 & c0 & costs0 & paths0 & nt0 & E0 & _). eapply IH. exact E0. }
  destruct (B _ _ _ _ _ _ E) as (p0 & c0 & costs0 & paths0 & nt0 & E0).
  rewrite (published prim to32 0.18 0.6 0.62 0.115 default_ne kuka_object kuka_object_ok rsq pq ypr fuel (Some scene1) (free_line 15 draws) 500 p0 c0 costs0 paths0 nt0) with (iters := 3%nat) in E; [discriminate| | |exact E0].
  - intros Z. apply (f_equal (@length _)) in Z. rewrite line_length in Z. discriminate.
  - apply Nat.leb_le. reflexivity.
Qed.
Lemma refine_raises (t : R) : exists s d, unit_row s /\ 0 < d /\ forall prim to32 pq ypr fuel draws, exact_prim prim -> pq_ok pq -> Forall (pt_ok 500) (free_line 15 draws) ->
  (forall i, (i < 15)%nat -> exists row, In row (firstn 500 (draws i)) /\ joints_within d s row) -> refine_script prim to32 pq ypr fuel None draws = Raise AttributeError.
Proof.
  destruct scene1_low as [Lw Rc]. destruct (line_reachable t 15 scene1 Lw Rc) as (s & d & Us & Hd & H). exists s, d. split; auto. split; auto. intros prim to32 pq ypr fuel draws X Q P R.
  assert (N : free_line 15 draws <> []) by (intros Z; apply (f_equal (@length _)) in Z; rewrite line_length in Z; discriminate).
  destruct (it_first prim to32 0.18 0.6 0.62 0.115 default_ne kuka_object kuka_object_ok ypr fuel None scene1 (free_line 15 draws) 500 pq X kuka_object_solid Rc N (line_free 15 draws) (H 500%nat ypr fuel draws P R) Q) as (rows & c & _ & E).
  unfold refine_script. rewrite (published prim to32 0.18 0.6 0.62 0.115 default_ne kuka_object kuka_object_ok rsq pq ypr fuel (Some scene1) (free_line 15 draws) 500 rows c [c] [rows] 1 N) with (iters := 3%nat); [reflexivity| |exact E].
  apply Nat.leb_le. reflexivity.
Qed.

(** ** follow_line_orientation_free.py *)
Lemma line_scene : parse_obstacles line_orient_free = Ok scene1.
Proof. rewrite (proj1 obstacles_line). assert (E : M4 mid (V3 0.8 0 0.12) v0 1 = table_tf) by (unfold table_tf; f_equal; apply vec3_eq; cbn [vx vy vz]; lra). unfold scene1, boxes. cbn [map fst snd]. rewrite E. reflexivity. Qed.
Lemma line_script_ends (t : R) : exists s d, unit_row s /\ 0 < d /\ forall prim to32 pq ypr fuel' src, exact_prim prim -> pq_ok pq -> (forall j, (1 <= length (src j))%nat /\ Forall unit_row (src j)) ->
  (forall j, exists j' row rest, (j <= j')%nat /\ src j' = row :: rest /\ joints_within d s row) ->
  exists rows f0, forall fuel, (f0 <= fuel)%nat -> line_script prim to32 pq fuel ypr fuel' src = Ok rows.
Proof.
  destruct scene1_low as [Lw Rc]. destruct path_line as (path & Ep & [Lp Hp]). destruct (line_rows t) as (s & Us & H).
  destruct (H scene1 (map (fun k => -0.2 + INR k / INR 9 * (0.2 - -0.2)) (seq 0 10)) Lw Rc) as (d & Hd & D).
  { apply Forall_map, Forall_forall. intros k Ik. apply in_seq in Ik. assert (0 <= INR k <= 9) by (split; [apply pos_INR|replace 9 with (INR 9) by (cbn; lra); apply le_INR; lia]). replace (INR 9) with 9 by (cbn; lra). lra. }
  exists s, d. split; auto. split; auto. intros prim to32 pq ypr fuel' src X Q Sr Ag.
  assert (R : Forall (recurs prim kuka_object (inc_samples ypr fuel' src) scene1) (as_path (fun _ => []) path)).
  { apply Forall_forall. intros tp I. destruct (In_nth_error _ _ I) as (k & Ek). apply as_path_nth in Ek. destruct Ek as (pt & Ek & ->). assert (Lk : (k < 10)%nat) by (rewrite <- Lp; apply nth_error_Some; congruence). rewrite (Hp k pt Ek). unfold on_line. cbn [vx vy vz as_pathpt].
    set (y := -0.2 + INR k / INR 9 * (0.2 - -0.2)). replace [0.8 + INR k / INR 9 * (0.8 - 0.8); y; 0.2 + INR k / INR 9 * (0.2 - 0.2)] with [0.8; y; 0.2] by (f_equal; [|f_equal; f_equal]; ring).
    assert (SA : forall j row rest, src j = row :: rest -> inc_samples ypr fuel' src j (PFree [0.8; y; 0.2] []) = Ok [row_frame (V3 0.8 y 0.2) row]).
    { intros j row rest E. cbn [inc_samples]. rewrite free_samples_rows; [rewrite E; reflexivity|]. destruct (Sr j) as [L U]. split; [reflexivity|]. split; auto. }
    split.
    - intros j. destruct (src j) as [|row rest] eqn:E; [destruct (Sr j) as [L _]; rewrite E in L; cbn in L; lia|]. eexists _, _. apply (SA j row rest E).
    - intros j. destruct (Ag j) as (j' & row & rest & Lj & E & J). eexists j', _, _. split; [exact Lj|]. split; [apply (SA j' row rest E)|].
      apply (solved_free 0.18 0.6 0.62 0.115 default_ne kuka_object kuka_object_ok scene1 kuka_object_solid Rc prim _ X). apply D; auto.
      + apply in_map_iff. exists k. split; auto. apply in_seq. lia.
      + destruct (Sr j') as [_ U]. rewrite E in U. inversion U; auto. }
  destruct (inc_succeeds prim to32 0.18 0.6 0.62 0.115 default_ne kuka_object kuka_object_ok (inc_samples ypr fuel' src) scene1 (as_path (fun _ => []) path) 50 1000 pq) as (rows & f0 & E); auto.
  - intros Z. apply (f_equal (@length _)) in Z. unfold as_path in Z. rewrite map_length, combine_length, seq_length, Lp in Z. discriminate.
  - lia.
  - apply Nat.ltb_lt. reflexivity.
  - cbv zeta in E. exists rows, f0. intros fuel Hf. unfold line_script, incremental_script. rewrite Ep. cbn [bind]. rewrite line_scene. cbn [set_initial_path bind]. rewrite (E fuel Hf). reflexivity.
Qed.
Lemma line_script_sound prim to32 pq fuel ypr fuel' src rows : exact_prim prim -> (forall j, (1 <= length (src j))%nat /\ Forall unit_row (src j)) -> line_script prim to32 pq fuel ypr fuel' src = Ok rows ->
  length rows = 10%nat /\ forall k row, nth_error rows k = Some row -> exists q T, row = map to32 q /\ rigid T /\ pos T = V3 0.8 (-0.2 + INR k / 9 * 0.4) 0.2 /\ reaches 0.6 0.62 (k_rob kuka_object) q T /\ clear (k_rob kuka_object) scene1 q.
Proof.
  intros X Sr. unfold line_script, incremental_script. destruct path_line as (path & Ep & [Lp Hp]). rewrite Ep. cbn [bind]. rewrite line_scene. cbn [set_initial_path bind].
  destruct (snd (kuka_inc_plan _ _ _ _ _ _ _ _ _ _ _)) as [[|rows' c]| |] eqn:E; cbn [bind]; try discriminate. intros H. injection H as ->.
  assert (P : Forall (inc_ok src) (as_path (fun _ => []) path)).
  { apply Forall_forall. intros tp I. destruct (In_nth_error _ _ I) as (k & Ek). apply as_path_nth in Ek. destruct Ek as (pt & Ek & ->). rewrite (Hp k pt Ek). intros j. destruct (Sr j) as [L U]. split; [reflexivity|]. split; auto. }
  apply (inc_sound prim to32 0.18 0.6 0.62 0.115 default_ne kuka_object kuka_object_ok rsq pq fuel ypr fuel' src scene1 _ 50 1000 rows c X kuka_object_solid (proj2 scene1_low) P) in E.
  pose proof (PlanningIter.Forall2_length _ _ _ E) as L. split. { rewrite <- L. unfold as_path. rewrite map_length, combine_length, seq_length, Lp. reflexivity. }
  intros k row Ek. destruct (Forall2_nth_r _ _ _ _ _ E Ek) as (tp & Et & q & T & E1 & A & R & C). exists q, T. split; auto. apply as_path_nth in Et. destruct Et as (pt & Et & ->). rewrite (Hp k pt Et) in A. destruct A as [RT A]. split; auto. split; auto.
  cbn [as_pathpt] in A. unfold on_line in A. cbn [vx vy vz] in A. destruct (pos T) as [x y z]. cbn [vx vy vz] in A. injection A as <- <- <-. replace (INR 9) with 9 by (cbn; lra). apply vec3_eq; cbn [vx vy vz]; lra.
Qed.

(** ** weld_circle.py *)
Lemma torch_kuka_ok : kuka_ok 0.18 0.6 0.62 0.115 torch_kuka /\ solid (k_rob torch_kuka) /\ r_tool (k_rob torch_kuka) = Some torch.
Proof. destruct box_case as (A & B & _ & _ & C). auto. Qed.
Lemma weld_upright prim to32 pq fuel ypr fuel' src rows : exact_prim prim -> (forall j, (1 <= length (src j))%nat /\ Forall unit_row (src j)) -> weld_script prim to32 pq fuel ypr fuel' src = Ok rows ->
  length rows = 15%nat /\ (forall k row, nth_error rows k = Some row -> exists q T, row = map to32 q /\ rigid T /\ pos T = V3 0.8 (-0.1 + INR k / 14 * 0.2) 0 /\ reaches 0.6 0.62 (k_rob torch_kuka) q T /\ clear (k_rob torch_kuka) (passage_boxes 0.8) q /\
     (k = 7%nat -> sin (nth 4 q 0) <> 0 -> cos (nth 2 q 0) <> 0 -> 0.745 <= vz (col2 (rot T)))).
Proof.
  intros X Sr. unfold weld_script, incremental_script. destruct path_passage_2 as (path & Ep & [Lp Hp]). rewrite Ep. cbn [bind]. rewrite (proj2 obstacles_passage). cbn [bind]. destruct torch_kuka_ok as (K0 & S0 & T0).
  destruct (snd (kuka_inc_plan _ _ _ _ _ _ _ _ _ _ _)) as [[|rows' c]| |] eqn:E; cbn [bind]; try discriminate. intros H. injection H as ->.
  assert (P : Forall (inc_ok src) (as_path (fun _ => []) path)).
  { apply Forall_forall. intros tp I. destruct (In_nth_error _ _ I) as (k & Ek). apply as_path_nth in Ek. destruct Ek as (pt & Ek & ->). rewrite (Hp k pt Ek). intros j. destruct (Sr j) as [L U]. split; [reflexivity|]. split; auto. }
  apply (inc_sound prim to32 0.18 0.6 0.62 0.115 default_ne torch_kuka K0 rsq pq fuel ypr fuel' src (passage_boxes 0.8) _ 50 1000 rows c X S0 (boxes_rigid _) P) in E.
  pose proof (PlanningIter.Forall2_length _ _ _ E) as L. split. { rewrite <- L. unfold as_path. rewrite map_length, combine_length, seq_length, Lp. reflexivity. }
  intros k row Ek. destruct (Forall2_nth_r _ _ _ _ _ E Ek) as (tp & Et & q & T & E1 & A & R & C). exists q, T. split; auto. assert (Et' := Et). assert (A' := A). apply as_path_nth in Et. destruct Et as (pt & Et & ->). rewrite (Hp k pt Et) in A. destruct A as [RT A]. split; auto. split.
  { cbn [as_pathpt] in A. unfold on_line in A. cbn [vx vy vz] in A. destruct (pos T) as [x y z]. cbn [vx vy vz] in A. injection A as <- <- <-. replace (INR 14) with 14 by (cbn; lra). apply vec3_eq; cbn [vx vy vz]; lra. }
  split; auto. split; auto. intros -> N5 N3. destruct R as (q1 & q2 & q3 & q4 & q5 & q6 & F & -> & Ef & R1 & _). cbn [nth] in N5, N3. rewrite (R1 N5 N3) in Ef.
  assert (AR : armed (k_rob torch_kuka) [q1; q2; q3; q4; q5; q6]). { pose proof (ko_rob _ _ _ _ _ K0) as Lk. split; [apply Lk|]. split; [eapply like_joints; eauto; apply Kuka_joints|]. split; auto. split; auto. cbn. lia. }
  assert (EI : import_paths task_small_passage = Ok [path]) by (rewrite same_passage, Ep; reflexivity).
  apply (passage_robot prim (k_rob torch_kuka) [q1; q2; q3; q4; q5; q6] path (fun _ => []) _ T X AR EI Et' A' Ef).
  destruct AR as (G & J & SO & LN & _). apply (free_iff_clear prim) in C; auto; [|apply boxes_rigid]. unfold hit in C.
  destruct (collision_correct prim (k_rob torch_kuka) [q1; q2; q3; q4; q5; q6] (passage_boxes 0.8) G J ltac:(lia) ltac:(lia)) as (b & Eb & _). rewrite Eb in *. rewrite C. reflexivity.
Qed.
