(** * Property theorems C141-C145: what finer sampling achieves.

    [allowed tp T]: T meets the tolerances of tp.  [gridded tp]: not the point class with
    random orientations.  [fine v]: v is a number or a tolerance with two samples or
    more.  [covers tp T T']: each coordinate of the position of T' is within half a step
    of that of T, and the orientations turn a vector u into vectors at most (sum of the
    half steps of the angles) * |u| apart.  [resampled m tp]: the point tp with m samples
    for each tolerance.  [within_of e T T']: positions at most e apart, turned vectors at
    most e * |u|.  [serves a1 a2 d4 k scene tp q]: the six joint values q reach a frame
    that tp allows, the robot at q is clear of the scene and itself, the wrist centre is
    off the axis of joint 1, elbow and wrist are not stretched.  [interior q]: inside the
    ranges of angles Kuka.ik reports.  [joints_within d q q']: joint values less than d
    apart.  [clear], [clear_by], [candidate], [cong]: as for C108 and C139.  Cost in real
    numbers, samples and inverse kinematics in real numbers, [to32] any rounding of the
    joint values that are handed to the graph. *)
From Coq Require Import String Reals Lra Lia List Bool Arith ZArith.
From Verif Require Import PyBase Cost SpecPath GraphCommon CppGraph CppGraphProofs CppSearch CppHeap CppMain CppExamples Mat Util UtilProofs HaltonProofs Geometry GeometryProofs Robot RobotProofs RobotForms Ik IkProofs KukaProofs RailProofs Path PathProofs Planning PlanningProofs PlanningCart Resources ResourcesProofs TaskProofs Pipeline PipelineProofs PipelineExamples Motion FloatCollProofs LocalIk Margin GridCover Resolution ResolutionExamples.
Import ListNotations.
Local Open Scope R_scope.

(** C141: every allowed frame has a sample within half a step. *)
Theorem C141_cover : forall n ypr fuel tp T, pt_ok n tp -> gridded tp -> Forall fine (positions tp ++ angles tp) -> allowed tp T ->
  exists Ts T', pt_samples ypr fuel n tp = Ok Ts /\ In T' Ts /\ covers tp T T'.
Proof. exact cover. Qed.
Print Assumptions C141_cover.
(** C141: enough samples come as near as wanted. *)
Theorem C141_dense : forall n ypr fuel tp T e, pt_ok n tp -> gridded tp -> allowed tp T -> 0 < e ->
  exists N, forall m, (N <= m)%Z -> exists Ts T', pt_samples ypr fuel n (resampled m tp) = Ok Ts /\ In T' Ts /\ within_of e T T'.
Proof. exact dense. Qed.
Print Assumptions C141_dense.
(** the finer point allows the same frames *)
Theorem C141_same : forall m tp T, allowed (resampled m tp) T <-> allowed tp T.
Proof. exact resampled_allowed. Qed.
Print Assumptions C141_same.
(** C141: refuted for random orientations: any number of draws may coincide. *)
Theorem C141_random_refuted : forall ypr fuel n, exists tp Ts T, pt_ok n tp /\ allowed tp T /\ pt_samples ypr fuel n tp = Ok Ts /\ length Ts = n /\ forall T', In T' Ts -> ~ within_of 1 T T'.
Proof. exact random_gap. Qed.
Print Assumptions C141_random_refuted.
Example C141_example : exists T, pt_ok 5 (PEuler slack) /\ gridded (PEuler slack) /\ Forall fine (positions (PEuler slack) ++ angles (PEuler slack)) /\ allowed (PEuler slack) T.
Proof. destruct bent_serves as [(T & q1 & q2 & q3 & q4 & q5 & q6 & _ & A & _) _]. exists T. split; [apply (slack_ok 5)|]. split; [apply (slack_ok 5)|]. split; [cbn; repeat constructor; cbn; lia|exact A]. Qed.

(** C142: if the arm can serve every point of the path, then bfs and dijkstra return a
    path for every large enough number of samples. *)
Theorem C142_bfs : forall prim to32 a1 a2 d4 d6, a2 * d4 <> 0 -> forall k, kuka_ok a1 a2 d4 d6 k -> forall scene, solid (k_rob k) -> rigid_coll scene ->
  forall ypr fuel n path ow, exact_prim prim -> path <> [] -> Forall (fun tp => pt_ok n tp /\ gridded tp /\ exists q, serves a1 a2 d4 k scene tp q) path ->
  exists N, forall m, (N <= m)%Z -> forall pq, exists rows, let cost := walk_cost (K := RCost) (jcost (K := RCost) rsq (eff_weights 1 6 ow)) in let samples := pt_samples ypr fuel n in
  snd (kuka_plan prim to32 (K := RCost) rsq pq samples scene (map (resampled m) path) "bfs" ow k) = Ok (GspOk rows (cost rows)) /\
  Forall2 (fun tp row => exists q, candidate prim k scene samples (resampled m tp) q /\ row = map to32 q) path rows.
Proof. exact resolution_bfs. Qed.
Print Assumptions C142_bfs.
Theorem C142_dijkstra : forall prim to32 a1 a2 d4 d6, a2 * d4 <> 0 -> forall k, kuka_ok a1 a2 d4 d6 k -> forall scene, solid (k_rob k) -> rigid_coll scene ->
  forall ypr fuel n path ow, exact_prim prim -> path <> [] -> Forall (fun tp => pt_ok n tp /\ gridded tp /\ exists q, serves a1 a2 d4 k scene tp q) path ->
  exists N, forall m, (N <= m)%Z -> forall pq, pq_ok pq -> exists rows, let cost := walk_cost (K := RCost) (jcost (K := RCost) rsq (eff_weights 1 6 ow)) in let samples := pt_samples ypr fuel n in
  snd (kuka_plan prim to32 (K := RCost) rsq pq samples scene (map (resampled m) path) "dijkstra" ow k) = Ok (GspOk rows (cost rows)) /\
  Forall2 (fun tp row => exists q, candidate prim k scene samples (resampled m tp) q /\ row = map to32 q) path rows.
Proof. exact resolution_dijkstra. Qed.
Print Assumptions C142_dijkstra.
(** C142: refuted for the number of samples as given: with two samples of a wide
    tolerance the planner raises, though the arm can serve the point. *)
Theorem C142_few_samples_refuted : exists k scene tp, kuka_ok 0.18 0.6 0.62 0.115 k /\ solid (k_rob k) /\ rigid_coll scene /\ gridded tp /\ (forall n, pt_ok n tp) /\
  (exists q, serves 0.18 0.6 0.62 k scene tp q) /\
  forall prim to32 (K : CostStruct) (sq_acc : K -> R -> R -> R -> K) pq ypr fuel n method ow,
  snd (kuka_plan prim to32 sq_acc pq (pt_samples ypr fuel n) scene [tp] method ow k) = Raise AttributeError.
Proof. exact few_samples. Qed.
Print Assumptions C142_few_samples_refuted.
Example C142_example : let path := [PEuler slack; PEuler slack] in
  kuka_ok 0.18 0.6 0.62 0.115 bare /\ solid (k_rob bare) /\ rigid_coll (Coll [] []) /\ path <> [] /\
  Forall (fun tp => pt_ok 5 tp /\ gridded tp /\ exists q, serves 0.18 0.6 0.62 bare (Coll [] []) tp q) path.
Proof.
  intros path. split; [apply new_kuka_ok|]. split; [exact bare_solid|]. split; [constructor|]. split; [discriminate|].
  repeat (apply Forall_cons; [split; [apply (slack_ok 5)|]; split; [apply (slack_ok 5)|]; exists bent; apply bent_serves|]). apply Forall_nil.
Qed.

(** C143: the path found costs no more than joint values near any given ones that serve
    the points. *)
Theorem C143_near_optimal : forall prim to32 a1 a2 d4 d6, a2 * d4 <> 0 -> forall k, kuka_ok a1 a2 d4 d6 k -> forall scene, solid (k_rob k) -> rigid_coll scene ->
  forall ypr fuel n e path qs ow, exact_prim prim -> path <> [] -> 0 < e -> Forall2 (fun tp q => pt_ok n tp /\ gridded tp /\ serves a1 a2 d4 k scene tp q /\ interior q) path qs ->
  exists N, forall m, (N <= m)%Z -> forall pq, exists rows ps, let cost := walk_cost (K := RCost) (jcost (K := RCost) rsq (eff_weights 1 6 ow)) in
  snd (kuka_plan prim to32 (K := RCost) rsq pq (pt_samples ypr fuel n) scene (map (resampled m) path) "bfs" ow k) = Ok (GspOk rows (cost rows)) /\
  Forall2 (joints_within e) qs ps /\ cle (cost rows) (cost (map (map to32) ps)).
Proof. exact near_optimal. Qed.
Print Assumptions C143_near_optimal.
(** C143: with a fine enough rounding and enough samples the cost exceeds that of any
    given motion through the points by less than e. *)
Theorem C143_cost : forall prim a1 a2 d4 d6 k scene ypr fuel n path qs ow e, a2 * d4 <> 0 -> kuka_ok a1 a2 d4 d6 k -> solid (k_rob k) -> rigid_coll scene -> exact_prim prim -> path <> [] -> 0 < e ->
  Forall2 (fun tp q => pt_ok n tp /\ gridded tp /\ serves a1 a2 d4 k scene tp q /\ interior q) path qs ->
  let cost := walk_cost (K := RCost) (jcost (K := RCost) rsq (eff_weights 1 6 ow)) in
  exists r, 0 < r /\ forall to32, (forall x, Rabs x <= 5 -> Rabs (to32 x - x) <= r) ->
  exists N, forall m, (N <= m)%Z -> forall pq, exists rows c c0,
  snd (kuka_plan prim to32 (K := RCost) rsq pq (pt_samples ypr fuel n) scene (map (resampled m) path) "bfs" ow k) = Ok (@GspOk RCost R rows (Some c)) /\
  cost qs = Some c0 /\ c < c0 + e.
Proof. exact near_optimal_cost. Qed.
Print Assumptions C143_cost.
Example C143_example : Forall2 (fun tp q => pt_ok 5 tp /\ gridded tp /\ serves 0.18 0.6 0.62 bare (Coll [] []) tp q /\ interior q) [PEuler slack; PEuler slack] [bent; bent].
Proof. repeat (apply Forall2_cons; [split; [apply (slack_ok 5)|]; split; [apply (slack_ok 5)|]; apply bent_serves|]). apply Forall2_nil. Qed.

(** C144: away from the singularities the inverse kinematics varies continuously: poses
    near T have a solution near the given one, up to whole turns. *)
Theorem C144_ik_continuous : forall a1 a2 d4 d6, a2 * d4 <> 0 -> forall k, kuka_ok a1 a2 d4 d6 k -> solid (k_rob k) ->
  forall q1 q2 q3 q4 q5 q6 T e, rigid T -> snd (fk (k_rob k) [q1; q2; q3; q4; q5; q6]) = Ok T -> 0 < lxy (kuka_centre a1 a2 d4 q1 q2 q3) -> Rabs (sin q3) < 1 - tol -> sin q5 <> 0 -> 0 < e ->
  exists d, 0 < d /\ forall T', rigid T' -> within_of d T T' -> exists sols s p, snd (kuka_ik k T') = Ok (IkOk (Own sols)) /\ In s sols /\ Forall2 cong p s /\
    joints_within e [q1; q2; q3; q4; q5; q6] p /\ snd (fk (k_rob k) p) = Ok T'.
Proof. exact ik_continuous. Qed.
Print Assumptions C144_ik_continuous.
Example C144_example : exists T, rigid T /\ snd (fk (k_rob bare) [0; 0; 0; 0; PI / 2; 0]) = Ok T /\ 0 < lxy (kuka_centre 0.18 0.6 0.62 0 0 0) /\ Rabs (sin 0) < 1 - tol /\ sin (PI / 2) <> 0.
Proof. destruct bent_serves as [(T & q1 & q2 & q3 & q4 & q5 & q6 & E & A & F & H1 & H3 & H5 & _) _]. injection E as <- <- <- <- <- <-. exists T. split; [apply A|]. auto. Qed.

(** C145: a configuration without contact keeps a distance, and so do all joint values near it. *)
Theorem C145_margin : forall r scene q, solid r -> rigid_coll scene -> clear r scene q -> exists d, 0 < d /\ clear_by d r scene q.
Proof. exact clear_margin. Qed.
Print Assumptions C145_margin.
Theorem C145_open : forall r scene q, solid r -> rigid_coll scene -> clear r scene q -> exists d, 0 < d /\ forall q', joints_within d q q' -> clear r scene q'.
Proof. exact clear_open. Qed.
Print Assumptions C145_open.
(** C145: the check itself, Robot.is_in_collision, answers no for all of them. *)
Theorem C145_check_open : forall prim r scene q, exact_prim prim -> good r -> joints_ok r -> (1 <= ndof r <= length q)%nat -> solid r -> rigid_coll scene -> hit prim r scene q = false ->
  exists d, 0 < d /\ forall q', joints_within d q q' -> hit prim r scene q' = false.
Proof. exact check_open. Qed.
Print Assumptions C145_check_open.
Example C145_example : solid (k_rob bare) /\ rigid_coll (Coll [] []) /\ clear (k_rob bare) (Coll [] []) bent.
Proof. split; [exact bare_solid|]. split; [constructor|apply bare_clear; reflexivity]. Qed.
