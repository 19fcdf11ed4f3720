(** * Property theorem C133: collisions away from the planned configurations.

    [lerp s q q'] is the configuration q + s (q' - q).  [gap r scene q d]: every
    point of a link or the tool is at distance d or more from the scene.
    [self_gap r q d]: the same for the pairs compared by is_in_self_collision.
    [reach r rho]: no point of a link geometry or tool is further than rho from the
    origin of its frame.  [base_clear]: the fixed base is clear of the scene.
    [move_bound]: see C113.  [f32]: rounding to binary32.  [slider]: a robot of one
    sliding joint that carries a cube of 0.2.  [plate z]: a plate at height z. *)
From Coq Require Import String Reals Lra List Arith Lia.
From Verif Require Import PyBase Cost SpecPath GraphCommon CppGraph CppExamples Mat Util Geometry GeometryProofs Robot RobotProofs Planning PlanningProofs Pipeline PipelineProofs Motion MotionKuka FloatCost FloatCostProofs MotionGap.
Import ListNotations.
Local Open Scope R_scope.

(** C133: planned configurations can be free of collision with a collision halfway between them. *)
Theorem C133_between_refuted : forall prim pq, exact_prim prim ->
  exists rows c, get_shortest_path (K := RCost) 1 rsq pq (fun x => x) (arrays F32 1 [[[0]]; [[1]]]) "bfs" None = Ok (GspOk (K := RCost) rows c) /\ rows = [[0]; [1]] /\
  Forall (fun q => snd (robot_collision prim slider q (plate 0.5)) = Ok false) rows /\
  snd (robot_collision prim slider (lerp (1 / 2) [0] [1]) (plate 0.5)) = Ok true.
Proof. exact between_refuted. Qed.
Print Assumptions C133_between_refuted.
(** C133: each joint value that is no binary32 number has a scene that is hit only after the rounding. *)
Theorem C133_rounded_refuted : forall prim x, exact_prim prim -> f32 x <> x ->
  exists z, snd (robot_collision prim slider [x] (plate z)) = Ok false /\ snd (robot_collision prim slider (map f32 [x]) (plate z)) = Ok true.
Proof. exact round_refuted. Qed.
Print Assumptions C133_rounded_refuted.
Example C133_not_float : f32 (1 / 3) <> 1 / 3.
Proof. exact third_rounds. Qed.
(** C133: with enough clearance at both ends no configuration between them collides. *)
Theorem C133_between_partial : forall prim r scene q q' d d' rho, exact_prim prim -> good r -> joints_ok r -> (1 <= ndof r <= length q)%nat -> solid r -> rigid_coll scene ->
  length q = length q' -> reach r rho -> base_clear r scene ->
  gap r scene q d -> gap r scene q' d -> (r_self r = true -> self_gap r q d' /\ self_gap r q' d') ->
  move_bound (r_links r) q q' rho < 2 * d -> move_bound (r_links r) q' q rho < 2 * d ->
  (r_self r = true -> move_bound (r_links r) q q' rho < d' /\ move_bound (r_links r) q' q rho < d') ->
  forall s, 0 <= s <= 1 -> clear r scene (lerp s q q') /\ snd (robot_collision prim r (lerp s q q') scene) = Ok false.
Proof. exact between_clear. Qed.
Print Assumptions C133_between_partial.
(** C133: with enough clearance the configuration rounded to binary32 does not collide. *)
Theorem C133_rounded_partial : forall prim r scene q d d' rho, exact_prim prim -> good r -> joints_ok r -> (1 <= ndof r <= length q)%nat -> solid r -> rigid_coll scene ->
  reach r rho -> base_clear r scene -> gap r scene q d -> (r_self r = true -> self_gap r q d') -> Forall (fun x => Rabs x <= 3 * PI / 2) q ->
  let m := ulp_bound * move_bound (r_links r) q (map (fun x => x - 1) q) rho in
  m < d -> (r_self r = true -> 2 * m < d') -> snd (robot_collision prim r (map f32 q) scene) = Ok false.
Proof. exact rounded_clear. Qed.
Print Assumptions C133_rounded_partial.
Example C133_case : good slider /\ joints_ok slider /\ solid slider /\ rigid_coll (plate 2) /\ base_clear slider (plate 2) /\ reach slider 0.2 /\
  gap slider (plate 2) [0] 0.8 /\ gap slider (plate 2) [1] 0.8 /\ self_gap slider [0] 2 /\ self_gap slider [1] 2 /\
  move_bound (r_links slider) [0] [1] 0.2 = 1 /\ move_bound (r_links slider) [1] [0] 0.2 = 1.
Proof. exact slider_case. Qed.
