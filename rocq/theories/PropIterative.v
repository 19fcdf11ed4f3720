(** * Property theorems C148-C151: the limits of sampling, iterative and incremental planning on robot objects.

    [serves a1 a2 d4 k scene tp q]: q reaches a frame that tp allows, clear of the scene,
    wrist centre off the axis of joint 1, elbow and wrist not stretched.  [allowed tp T]:
    T meets the tolerances of tp.  [clear r scene q]: no contact at q.  [reaches a2 d4 r q
    T]: forward kinematics of q is T up to the tolerance of a stretched elbow (exactly T
    away from stretched elbow and wrist).  [bare]: the Kuka with default lengths without
    collision shapes.  [kuka_it_plan]: cart_to_joint_iterative, [kuka_inc_plan]: method
    "grid_incremental", [kuka_inc_columns]: cart_to_joint_incremental, [kuka_plan]: method
    "grid".  [near] is Quaternion.random_near: [near j A d i] is draw i around A with
    distance d in call j; [near_ok]: no draw is the zero quaternion; [draws_near]: moreover
    no draw turns further than d.  [aim near path paths num m i T]: T is a frame sampled
    for point i in iteration m: allowed by the point if m = 0, else the position of the
    previous row with an orientation drawn near that of the previous row.  [regular row]:
    away from stretched elbow and wrist.  [first_sample samples tp T]: T is the first frame
    of some call for tp.  [keeps near num]: the num draws around an orientation contain that
    orientation; [unstretched row]: sine of joint 5 and cosine of joint 3 are not zero. *)
From Coq Require Import String Reals List Arith ZArith Bool Lra Lia.
From Verif Require Import PyBase Cost SpecPath GraphCommon CppGraph CppGraphProofs CppSearch CppHeap CppMain CppExamples Mat Util UtilProofs HaltonProofs Geometry GeometryProofs Robot RobotProofs RobotForms Ik IkProofs KukaProofs RailProofs Path PathProofs Planning PlanningProofs PlanningCart PlanningIter Resources ResourcesProofs TaskProofs Pipeline PipelineProofs PipelineExamples Motion MotionKuka LocalIk Margin GridCover Resolution ResolutionExamples Turn Uniform Iterative IterativeProofs IterativeExamples IterativeKept.
Import ListNotations.
Local Open Scope R_scope.

(** C148 as one would like it, without [interior] in C143: the plan costs at most as much
    as any motion through the points.  Refuted: Kuka.ik reports angles in one turn only, a
    path that turns the tool once around costs at least d however cheap the motion is. *)
Theorem C148_full_turn_refuted : exists d, 0 < d /\ forall e, 0 < e -> exists path qs c0, let cost := walk_cost (K := RCost) (jcost (K := RCost) rsq (eff_weights 1 6 None)) in
  path <> [] /\ Forall gridded path /\ (forall n, Forall (pt_ok n) path) /\ Forall2 (serves 0.18 0.6 0.62 bare (Coll [] [])) path qs /\ cost qs = Some c0 /\ c0 < e /\
  forall prim pq ypr fuel n, exact_prim prim -> let plan method := snd (kuka_plan prim (fun x => x) (K := RCost) rsq pq (pt_samples ypr fuel n) (Coll [] []) path method None bare) in
  (exists rows c, plan "bfs"%string = Ok (@GspOk RCost R rows (Some c)) /\ d <= c) /\
  (pq_ok pq -> exists rows c, plan "dijkstra"%string = Ok (@GspOk RCost R rows (Some c)) /\ d <= c).
Proof. exact full_turn. Qed.
Print Assumptions C148_full_turn_refuted.

(** C149: what a successful run of the iterative planner returns. *)
Theorem C149_iterative_sound : forall prim to32 a1 a2 d4 d6, a2 * d4 <> 0 -> forall k0, kuka_ok a1 a2 d4 d6 k0 ->
  forall (K : CostStruct) (sq_acc : K -> R -> R -> R -> K) pq ypr fuel near scene path num iters p c costs paths nt,
  exact_prim prim -> solid (k_rob k0) -> rigid_coll scene -> Forall (pt_ok num) path -> near_ok near ->
  snd (kuka_it_plan prim to32 sq_acc pq (cur_samples ypr fuel (Some near)) (Some scene) path num iters k0) = Ok (ItOk p c costs paths nt) ->
  length costs = iters /\ length paths = iters /\ nt = iters /\ (exists ps, paths = ps ++ [p]) /\ (exists cs, costs = cs ++ [c]) /\
  Forall (fun rows => length rows = length path) paths /\
  forall m i rows row, nth_error paths m = Some rows -> nth_error rows i = Some row ->
    exists q T, row = map to32 q /\ length q = 6%nat /\ Forall (fun x => Rabs x <= 3 * PI / 2) q /\ aim k0 near path paths num m i T /\ reaches a2 d4 (k_rob k0) q T /\ clear (k_rob k0) scene q.
Proof. exact @it_sound. Qed.
Print Assumptions C149_iterative_sound.
(** C149: without rounding every iteration keeps the positions of the path. *)
Theorem C149_positions_kept : forall prim to32 a1 a2 d4 d6, a2 * d4 <> 0 -> forall k0, kuka_ok a1 a2 d4 d6 k0 ->
  forall (K : CostStruct) (sq_acc : K -> R -> R -> R -> K) pq ypr fuel near scene path num iters p c costs paths nt,
  (forall x, to32 x = x) -> exact_prim prim -> solid (k_rob k0) -> rigid_coll scene -> Forall (pt_ok num) path -> near_ok near ->
  snd (kuka_it_plan prim to32 sq_acc pq (cur_samples ypr fuel (Some near)) (Some scene) path num iters k0) = Ok (ItOk p c costs paths nt) ->
  forall i x rnd, nth_error path i = Some (PFree x rnd) -> forall m,
  (forall m' rows row, (m' <= m)%nat -> nth_error paths m' = Some rows -> nth_error rows i = Some row -> sin (nth 4 row 0) <> 0 /\ cos (nth 2 row 0) <> 0) ->
  forall rows row, nth_error paths m = Some rows -> nth_error rows i = Some row ->
  exists F, snd (fk (k_rob k0) row) = Ok F /\ x = [vx (pos F); vy (pos F); vz (pos F)].
Proof. exact @it_exact. Qed.
Print Assumptions C149_positions_kept.
(** C149: with rows in binary32 the positions drift away by at most a fixed length per iteration. *)
Theorem C149_positions_drift : forall prim a1 a2 d4 d6, a2 * d4 <> 0 -> forall k0, kuka_ok a1 a2 d4 d6 k0 ->
  forall (K : CostStruct) (sq_acc : K -> R -> R -> R -> K) pq ypr fuel near scene path num iters p c costs paths nt,
  exact_prim prim -> solid (k_rob k0) -> rigid_coll scene -> Forall (pt_ok num) path -> near_ok near ->
  snd (kuka_it_plan prim f32 sq_acc pq (cur_samples ypr fuel (Some near)) (Some scene) path num iters k0) = Ok (ItOk p c costs paths nt) ->
  forall i x y z rnd, nth_error path i = Some (PFree [x; y; z] rnd) -> forall m,
  (forall m' rows row, (m' <= m)%nat -> nth_error paths m' = Some rows -> nth_error rows i = Some row -> regular row) ->
  forall rows row, nth_error paths m = Some rows -> nth_error rows i = Some row ->
  exists F, snd (fk (k_rob k0) row) = Ok F /\ len (vsub (pos F) (V3 x y z)) <= INR (S m) * (ulp_bound * (kuka_size a1 a2 d4 d6 + 6 * tip_len (k_rob k0))).
Proof. exact @it_drift. Qed.
Print Assumptions C149_positions_drift.
(** C149: one iteration is the plan of method "grid" with dijkstra. *)
Theorem C149_one_iteration : forall prim to32 a1 a2 d4 d6, a2 * d4 <> 0 -> forall k0, kuka_ok a1 a2 d4 d6 k0 ->
  forall ypr fuel near scene path num (pq : pqueue RCost R), exact_prim prim -> solid (k_rob k0) -> rigid_coll scene -> path <> [] -> Forall is_free path ->
  Forall (reachable a1 a2 d4 k0 scene (pt_samples ypr fuel num)) path -> pq_ok pq ->
  exists rows c, snd (kuka_plan prim to32 (K := RCost) rsq pq (pt_samples ypr fuel num) scene path "dijkstra" None k0) = Ok (GspOk rows c) /\
  snd (kuka_it_plan prim to32 (K := RCost) rsq pq (cur_samples ypr fuel near) (Some scene) path num 1 k0) = Ok (@ItOk RCost R rows c [c] [rows] 1).
Proof. exact it_first. Qed.
Print Assumptions C149_one_iteration.
(** C149: a run with one iteration less returns the beginning of the record. *)
Theorem C149_prefix : forall prim to32 a1 a2 d4 d6, a2 * d4 <> 0 -> forall k0, kuka_ok a1 a2 d4 d6 k0 ->
  forall (K : CostStruct) (sq_acc : K -> R -> R -> R -> K) pq samples scene path num n p c costs paths nt,
  snd (kuka_it_plan prim to32 sq_acc pq samples scene path num (S (S n)) k0) = Ok (ItOk p c costs paths nt) ->
  exists p0 c0 costs0 paths0 nt0, snd (kuka_it_plan prim to32 sq_acc pq samples scene path num (S n) k0) = Ok (ItOk p0 c0 costs0 paths0 nt0) /\
    costs = costs0 ++ [c] /\ paths = paths0 ++ [p] /\ nt = (nt0 + 1)%nat.
Proof. exact @it_prefix. Qed.
Print Assumptions C149_prefix.
Example C149_example : exists path near p1 p2 c1 c2, Forall (pt_ok 1) path /\ Forall is_free path /\ near_ok near /\ exact_prim box_test /\ solid (k_rob bare) /\
  snd (kuka_it_plan box_test (fun x => x) (K := RCost) rsq (scan_queue (K := RCost) (F := R)) (cur_samples (fun _ => v0) 1 (Some near)) (Some (Coll [] [])) path 1 2 bare) = Ok (@ItOk RCost R p2 c2 [c1; c2] [p1; p2] 2).
Proof.
  destruct turn_row as (r & U & Hr). exists [PFree [0.78; -0.115; -0.62] [r]; PFree [0.78; -0.115; -0.62] [r]], spin.
  destruct (growth box_test box_test_exact scan_queue (scan_queue_ok (K := RCost)) (scan_queue_min (K := RCost)) r (fun _ => v0) 1 (Hr _ _)) as (p1 & p2 & c & _ & E). exists p1, p2, (Some 0), (Some c).
  split; [repeat constructor; apply U|]. split; [repeat constructor|]. split; [intros j A d i H; apply spin_near; auto|]. split; [exact box_test_exact|]. split; [exact bare_solid|exact E].
Qed.
Example C149_example_drift : exists path rows c, Forall (pt_ok 1) path /\ Forall regular rows /\
  snd (kuka_it_plan box_test f32 (K := RCost) rsq (scan_queue (K := RCost) (F := R)) (cur_samples (fun _ => v0) 1 (Some spin)) (Some (Coll [] [])) path 1 1 bare) = Ok (@ItOk RCost R rows c [c] [rows] 1) /\
  ulp_bound * (kuka_size 0.18 0.6 0.62 0.115 + 6 * (0 + 0)) <= 1.2 / 1000000.
Proof.
  destruct turn_row as (r & U & Hr). destruct (drift_example box_test scan_queue (Some spin) r (fun _ => v0) 1 box_test_exact (scan_queue_ok (K := RCost)) (Hr _ _)) as (rows & c & E & F). exists [PFree [0.78; -0.115; -0.62] [r]], rows, c.
  split; [repeat constructor; apply U|]. split; auto. split; auto. apply default_numbers.
Qed.

(** C150 as one would like it: further iterations do not make the result worse.  Refuted,
    the cost can grow. *)
Theorem C150_cost_grows_refuted : exists path near, Forall (pt_ok 1) path /\ draws_near near /\ forall prim pq ypr fuel, exact_prim prim -> pq_ok pq -> pops_minimum pq ->
  let plan iters := snd (kuka_it_plan prim (fun x => x) (K := RCost) rsq pq (cur_samples ypr fuel (Some near)) (Some (Coll [] [])) path 1 iters bare) in
  exists p1 p2 c1 c2, plan 1%nat = Ok (@ItOk RCost R p1 (Some c1) [Some c1] [p1] 1) /\ plan 2%nat = Ok (@ItOk RCost R p2 (Some c2) [Some c1; Some c2] [p1; p2] 2) /\ c1 < c2.
Proof. exact cost_can_grow. Qed.
Print Assumptions C150_cost_grows_refuted.
(** C150: refuted, a solution can be lost for good. *)
Theorem C150_success_lost_refuted : exists path near, Forall (pt_ok 1) path /\ draws_near near /\ forall prim pq ypr fuel, exact_prim prim -> pq_ok pq -> pops_minimum pq ->
  let plan iters := snd (kuka_it_plan prim (fun x => x) (K := RCost) rsq pq (cur_samples ypr fuel (Some near)) (Some (Coll [] [])) path 1 iters bare) in
  (exists p c costs paths nt, plan 1%nat = Ok (@ItOk RCost R p c costs paths nt)) /\ forall iters, plan (S (S iters)) = Ok ItFail.
Proof. exact success_can_be_lost. Qed.
Print Assumptions C150_success_lost_refuted.
(** C150: with a Quaternion class without random_near, as in the published package, every
    run of two or more iterations that gets through the first one raises. *)
Theorem C150_published_refuted : forall prim to32 a1 a2 d4 d6, a2 * d4 <> 0 -> forall k0, kuka_ok a1 a2 d4 d6 k0 ->
  forall (K : CostStruct) (sq_acc : K -> R -> R -> R -> K) pq ypr fuel scene path num p c costs paths nt, path <> [] -> (1 <= num)%nat ->
  snd (kuka_it_plan prim to32 sq_acc pq (cur_samples ypr fuel None) scene path num 1 k0) = Ok (ItOk p c costs paths nt) ->
  forall iters, snd (kuka_it_plan prim to32 sq_acc pq (cur_samples ypr fuel None) scene path num (S (S iters)) k0) = Raise AttributeError.
Proof. exact @published. Qed.
Print Assumptions C150_published_refuted.
(** C150, the part that holds: if the draws contain the orientation they start from, the
    search is exact and the rows of the last iteration are unstretched, one more iteration
    succeeds as well and does not cost more.  Missing: random draws, and rows in binary32. *)
Theorem C150_kept_partial : forall prim a1 a2 d4 d6, a2 * d4 <> 0 -> forall k0, kuka_ok a1 a2 d4 d6 k0 ->
  forall (pq : pqueue RCost R) ypr fuel near scene num,
  exact_prim prim -> solid (k_rob k0) -> rigid_coll scene -> near_ok near -> pq_ok pq -> pops_minimum pq ->
  let plan path iters := snd (kuka_it_plan prim (fun x => x) (K := RCost) rsq pq (cur_samples ypr fuel (Some near)) (Some scene) path num iters k0) in
  forall path n p c costs paths nt, Forall (pt_ok num) path -> keeps near num ->
  plan path (S n) = Ok (@ItOk RCost R p c costs paths nt) -> Forall unstretched p ->
  exists p' r r', plan path (S (S n)) = Ok (@ItOk RCost R p' (Some r') (costs ++ [Some r']) (paths ++ [p']) (nt + 1)) /\ c = Some r /\ r' <= r.
Proof. exact it_kept. Qed.
Print Assumptions C150_kept_partial.
(** C150, the part that holds: then the recorded costs never grow. *)
Theorem C150_costs_descend_partial : forall prim a1 a2 d4 d6, a2 * d4 <> 0 -> forall k0, kuka_ok a1 a2 d4 d6 k0 ->
  forall (pq : pqueue RCost R) ypr fuel near scene num,
  exact_prim prim -> solid (k_rob k0) -> rigid_coll scene -> near_ok near -> pq_ok pq -> pops_minimum pq ->
  forall path, Forall (pt_ok num) path -> keeps near num -> forall n p c costs paths nt,
  snd (kuka_it_plan prim (fun x => x) (K := RCost) rsq pq (cur_samples ypr fuel (Some near)) (Some scene) path num n k0) = Ok (@ItOk RCost R p c costs paths nt) ->
  (forall rows, In rows paths -> Forall unstretched rows) ->
  forall m c1 c2, nth_error costs m = Some (Some c1) -> nth_error costs (S m) = Some (Some c2) -> c2 <= c1.
Proof. exact it_descends. Qed.
Print Assumptions C150_costs_descend_partial.
Example C150_example : exists path rows c, path <> [] /\
  snd (kuka_it_plan box_test f32 (K := RCost) rsq (scan_queue (K := RCost) (F := R)) (cur_samples (fun _ => v0) 1 None) (Some (Coll [] [])) path 1 1 bare) = Ok (@ItOk RCost R rows c [c] [rows] 1) /\
  exact_prim box_test /\ pq_ok (scan_queue (K := RCost) (F := R)) /\ pops_minimum (scan_queue (K := RCost) (F := R)).
Proof.
  destruct turn_row as (r & U & Hr). destruct (drift_example box_test scan_queue None r (fun _ => v0) 1 box_test_exact (scan_queue_ok (K := RCost)) (Hr _ _)) as (rows & c & E & F). exists [PFree [0.78; -0.115; -0.62] [r]], rows, c.
  split; [discriminate|]. split; auto. split; [exact box_test_exact|]. split; [apply scan_queue_ok|apply scan_queue_min].
Qed.
Example C150_example_kept : exists path near rows c p' r r', Forall (pt_ok 1) path /\ near_ok near /\ keeps near 1 /\ Forall unstretched rows /\
  let plan iters := snd (kuka_it_plan box_test (fun x => x) (K := RCost) rsq (scan_queue (K := RCost) (F := R)) (cur_samples (fun _ => v0) 1 (Some near)) (Some (Coll [] [])) path 1 iters bare) in
  plan 1%nat = Ok (@ItOk RCost R rows c [c] [rows] 1) /\ plan 2%nat = Ok (@ItOk RCost R p' (Some r') [c; Some r'] [rows; p'] 2) /\ c = Some r /\ r' <= r.
Proof.
  destruct turn_row as (r & U & Hr). destruct (kept_example box_test scan_queue (Some still) r (fun _ => v0) 1 box_test_exact (scan_queue_ok (K := RCost)) (Hr _ _)) as (rows & c & E & F).
  assert (P : Forall (pt_ok 1) [PFree [0.78; -0.115; -0.62] [r]]) by (repeat constructor; apply U). destruct still_ok as [N K].
  destruct (it_kept box_test 0.18 0.6 0.62 0.115 default_ne bare (new_kuka_ok _ _ _ _) scan_queue (fun _ => v0) 1 still (Coll [] []) 1 box_test_exact bare_solid (Forall_nil _) N (scan_queue_ok (K := RCost)) (scan_queue_min (K := RCost)) _ 0 rows c [c] [rows] 1%nat P (K 1%nat (le_n _)) E F) as (p' & r1 & r2 & E2 & Ec & Hle).
  exists [PFree [0.78; -0.115; -0.62] [r]], still, rows, c, p', r1, r2. split; [exact P|]. split; [exact N|]. split; [apply K, le_n|]. split; [exact F|]. cbv zeta. split; [exact E|]. split; [exact E2|]. split; assumption.
Qed.

(** C151: every row of an incremental plan reaches a frame its point allows, without contact. *)
Theorem C151_incremental_sound : forall prim to32 a1 a2 d4 d6, a2 * d4 <> 0 -> forall k0, kuka_ok a1 a2 d4 d6 k0 ->
  forall (K : CostStruct) (sq_acc : K -> R -> R -> R -> K) pq fuel ypr fuel' src scene path mn mx rows c,
  exact_prim prim -> solid (k_rob k0) -> rigid_coll scene -> Forall (inc_ok src) path ->
  snd (kuka_inc_plan prim to32 sq_acc pq fuel (inc_samples ypr fuel' src) scene path mn mx k0) = Ok (GspOk rows c) ->
  Forall2 (fun tp row => exists q T, row = map to32 q /\ allowed tp T /\ reaches a2 d4 (k_rob k0) q T /\ clear (k_rob k0) scene q) path rows.
Proof. exact @inc_sound. Qed.
Print Assumptions C151_incremental_sound.
(** C151: the columns hold the clear solutions of the frames drawn; drawing stops with
    min_samples solutions, or max_tries, and not before. *)
Theorem C151_columns : forall prim to32 a1 a2 d4 d6, a2 * d4 <> 0 -> forall k0, kuka_ok a1 a2 d4 d6 k0 ->
  forall fuel samples scene path mn mx Q, snd (kuka_inc_columns prim to32 fuel samples scene path mn mx k0 0%nat) = Ok Q ->
  Forall2 (fun tp e => exists Ts, Forall (first_sample samples tp) Ts /\ let found := flat_map (kuka_free prim k0 scene) in
    e = entry_of to32 (found Ts) /\ (Nat.min mn mx <= length (found Ts))%nat /\
    forall Ts1 T Ts2, Ts = Ts1 ++ T :: Ts2 -> (length (found Ts1) < mx)%nat /\ (Ts1 <> [] -> (length (found Ts1) < mn)%nat)) path Q.
Proof. exact @inc_enough. Qed.
Print Assumptions C151_columns.
(** C151: the frames used are the first ones of consecutive calls of get_samples, none is skipped or used twice. *)
Theorem C151_draws : forall prim to32 a1 a2 d4 d6, a2 * d4 <> 0 -> forall k0, kuka_ok a1 a2 d4 d6 k0 ->
  forall fuel samples scene path mn mx Q, snd (kuka_inc_columns prim to32 fuel samples scene path mn mx k0 0%nat) = Ok Q ->
  exists Tss, in_turn samples 0 path Tss /\ Q = map (fun Ts => entry_of to32 (flat_map (kuka_free prim k0 scene) Ts)) Tss.
Proof. exact @inc_draws. Qed.
Print Assumptions C151_draws.
(** C151: for a point with tolerances every draw is the first frame of its grid. *)
Theorem C151_first_only : forall ypr fuel' src tp T ypr' f n, gridded tp -> first_sample (inc_samples ypr fuel' src) tp T -> exists Ts, pt_samples ypr' f n tp = Ok (T :: Ts).
Proof. exact (grid_first (fun x => x) 0). Qed.
Print Assumptions C151_first_only.
(** C151: it ends when the first frame of every draw has a clear solution. *)
Theorem C151_ends_partial : forall prim to32 a1 a2 d4 d6, a2 * d4 <> 0 -> forall k0, kuka_ok a1 a2 d4 d6 k0 -> forall samples scene path mn mx,
  (forall tp, In tp path -> forall j, exists T Ts, samples j tp = Ok (T :: Ts) /\ kuka_free prim k0 scene T <> []) ->
  exists Q, snd (kuka_inc_columns prim to32 mx samples scene path mn mx k0 0%nat) = Ok Q.
Proof. exact @inc_ends. Qed.
Print Assumptions C151_ends_partial.
(** C151: it never ends when the first frame of a grid has none, *)
Theorem C151_never_ends : forall prim to32 a1 a2 d4 d6, a2 * d4 <> 0 -> forall k0, kuka_ok a1 a2 d4 d6 k0 -> forall fuel ypr fuel' src scene tp path mn mx T Ts,
  gridded tp -> pt_samples ypr fuel' 1 tp = Ok (T :: Ts) -> kuka_free prim k0 scene T = [] -> (0 < mn)%nat -> (0 < mx)%nat ->
  snd (kuka_inc_columns prim to32 fuel (inc_samples ypr fuel' src) scene (tp :: path) mn mx k0 0%nat) = OutOfFuel.
Proof. exact @inc_never. Qed.
Print Assumptions C151_never_ends.
(** C151: even when another frame of the grid is reachable: refuted that it ends. *)
Theorem C151_reachable_refuted : exists tp, gridded tp /\ (forall n, pt_ok n tp) /\ forall ypr fuel' src,
  (forall n, reachable 0.18 0.6 0.62 bare (Coll [] []) (pt_samples ypr fuel' n) tp) /\
  forall prim to32 mn mx, exact_prim prim -> (0 < mn)%nat -> (0 < mx)%nat -> forall fuel, snd (kuka_inc_columns prim to32 fuel (inc_samples ypr fuel' src) (Coll [] []) [tp] mn mx bare 0%nat) = OutOfFuel.
Proof. exact first_sample_only. Qed.
Print Assumptions C151_reachable_refuted.
Example C151_example : forall j, let tp := PEuler (turned 0) in inc_ok (fun _ => []) tp /\ gridded tp /\
  exists T Ts, inc_samples (fun _ => v0) 1 (fun _ => []) j tp = Ok (T :: Ts) /\ kuka_free box_test bare (Coll [] []) T <> [].
Proof.
  intros j tp. split; [apply (turned_ok 0 1)|]. split; [exact I|]. exists (tframe 0), []. split; [apply turned_samples|]. rewrite (bare_free box_test _ box_test_exact), <- sideframe_tframe. apply (side_some 0 _ _ 0); [lra|apply some_near].
Qed.
