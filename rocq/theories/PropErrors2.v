(** * Property theorems C78, C104 and C122, continued, C146 and C147: exact
    constraints and boxes, further exceptions.

    [fills c l]: the collection c covers exactly the axis-aligned boxes of l, given
    by their lowest and highest corners.  [nominal_x path N u]: the path has N
    points and the nominal frame of each has the x axis u.  [well_named d]:
    unique names, joints between known links, one link without parent. *)
From Coq Require Import String Reals Lra Lia List Bool Arith ZArith.
From Verif Require Import PyBase Cost GraphCommon CppGraph CppGraphProofs Mat Util Geometry GeometryProofs Robot RobotProofs Ik Path Planning PlanningProofs Optim OptimProofs Pipeline Resources Gui Extents ErrorProofs2.
From Verif Require Urdf Io.
Import ListNotations.
Local Open Scope R_scope.

(** C78: without a scene the constraints are exactly that every point is reached. *)
Theorem C78_no_scene : forall xyz r q lam mu, good r -> revolute r ->
  feasible xyz r None q lam mu <-> length q = length xyz /\ Forall (fun row => length row = 6%nat) q /\
  forall k p, nth_error xyz k = Some p -> exists qk T x y z rest, nth_error q k = Some qk /\ snd (fk r qk) = Ok T /\ p = x :: y :: z :: rest /\ pos T = V3 x y z.
Proof. exact feasible_alone. Qed.
Print Assumptions C78_no_scene.
Example C78_no_scene_example : good (Kuka 0.18 0.6 0.62 0.115) /\ revolute (Kuka 0.18 0.6 0.62 0.115).
Proof. split; [apply robot_init_good; repeat constructor|repeat constructor]. Qed.

(** C146: the boxes of the links, in the frame of each link *)
Theorem C146_kuka_extents : Forall2 fills kuka_geom
  [[(V3 (-0.24) (-0.1) 0, V3 0.06 0.1 0.1)]; [(V3 (-0.7) (-0.1) (-0.1), V3 0.1 0.1 0)];
   [(V3 (-0.1) 0 (-0.08), V3 0.1 0.1 0.42)]; [(V3 (-0.05) 0 (-0.05), V3 0.05 0.2 0.05)]; [(V3 (-0.05) (-0.05) 0, V3 0.05 0.05 0.085)]; [(V3 (-0.05) (-0.05) (-0.03), V3 0.05 0.05 0)]].
Proof. exact kuka_extents. Qed.
Print Assumptions C146_kuka_extents.
Theorem C146_rail_extents : Forall2 fills rail_geom
  [[(V3 (-0.1) (-0.1) (-0.2), V3 0.1 0.1 (-0.1))]; [(V3 (-0.24) (-0.1) 0, V3 0.06 0.1 0.1)]; [(V3 (-0.7) (-0.1) (-0.1), V3 0.1 0.1 0)];
   [(V3 (-0.1) 0 (-0.08), V3 0.1 0.1 0.42)]; [(V3 (-0.05) 0 (-0.05), V3 0.05 0.2 0.05)]; [(V3 (-0.05) (-0.05) 0, V3 0.05 0.05 0.085)]; [(V3 (-0.05) (-0.05) (-0.03), V3 0.05 0.05 0)]].
Proof. exact rail_extents. Qed.
Print Assumptions C146_rail_extents.
Theorem C146_anthropomorphic_extents : forall a2 a3, Forall2 fills (anthro_geom a2 a3)
  [[(V3 (-0.1) (-0.15) (-0.15), V3 0 0.15 0.15)]; [(V3 (- a2) (-0.05) (-0.05), V3 0 0.05 0.05)]; [(V3 (- a3) (-0.05) (-0.05), V3 0 0.05 0.05)]].
Proof. exact anthro_extents. Qed.
Print Assumptions C146_anthropomorphic_extents.

(** C146: the plates of the workpiece; C104: the x axis of the torch is along the seam, on the first line against its direction *)
Theorem C146_workpiece_extent : fills workpiece
  [(V3 (-0.8) (-0.4) 0, V3 0.8 0.4 0.01); (V3 (-0.8) (-0.4) 1.01, V3 0.8 0.4 1.02); (V3 (-0.79) 0.39 0.01, V3 0.79 0.4 1.01);
   (V3 0.79 (-0.4) 0.01, V3 0.8 0.4 1.01); (V3 (-0.8) (-0.4) 0.01, V3 (-0.79) 0.4 1.01)].
Proof. exact workpiece_extent. Qed.
Print Assumptions C146_workpiece_extent.
Theorem C104_seam_axis1 : forall N, nominal_x weld_path1 N (V3 (-1) 0 0).
Proof. exact weld_path1_x. Qed.
Print Assumptions C104_seam_axis1.
Theorem C104_seam_axis2 : forall N, nominal_x weld_path2 N (V3 0 1 0).
Proof. exact weld_path2_x. Qed.
Print Assumptions C104_seam_axis2.
Theorem C104_seam_axis3 : forall N, nominal_x weld_path3 N (V3 0 1 0).
Proof. exact weld_path3_x. Qed.
Print Assumptions C104_seam_axis3.

(** C146: the table and the obstacles *)
Theorem C146_scene1_extent : fills scene1 [(V3 0.55 (-0.25) 0.07, V3 1.05 0.25 0.17)].
Proof. exact scene1_extent. Qed.
Print Assumptions C146_scene1_extent.
Theorem C146_scene2_extent : fills scene2 [(V3 0.55 0.125 0.08, V3 1.05 0.375 0.18); (V3 0.75 (-0.15) 0.27, V3 0.85 (-0.05) 0.37); (V3 0.75 (-0.15) 0.03, V3 0.85 (-0.05) 0.13)].
Proof. exact scene2_extent. Qed.
Print Assumptions C146_scene2_extent.

(** C122: refuted: planning without a scene raises AttributeError as soon as the first sample can be reached. *)
Theorem C122_unloaded_refuted : forall (O : Type) (get : O -> robot) put prim to32 ik6 ik7 (K : CostStruct) (sq_acc : K -> R -> R -> R -> K) pq ypr fuel scene_at paths_at (e : editor O) draws tp path T Ts q qs,
  e_scene e = None -> (ndof (get (e_robot e)) <= 6)%nat -> as_path draws (e_path e) = tp :: path -> pt_samples ypr fuel 1000 tp = Ok (T :: Ts) ->
  snd (ik6 (e_robot e) T) = Ok (Some (q :: qs)) -> snd (step get put ik6 ik7 prim to32 sq_acc pq ypr fuel scene_at paths_at e (Plan draws)) = Raise AttributeError.
Proof. exact @plan_unloaded. Qed.
Print Assumptions C122_unloaded_refuted.
Example C122_unloaded_example : forall ypr fuel, exists p T, let e := Ed (Kuka 0.18 0.6 0.62 0.115) None [] [Io.PEuler p] "" "" "" 0 None in
  e_scene e = None /\ (ndof (e_robot e) <= 6)%nat /\ as_path (fun _ => []) (e_path e) = [PEuler p] /\ pt_samples ypr fuel 1000 (PEuler p) = Ok [T].
Proof. intros ypr fuel. exists (EulerPt [Fix 0; Fix 0; Fix 0] [Fix 0; Fix 0; Fix 0] [0; 0; 0; 0; 0; 0]). eexists. cbv zeta. split; [reflexivity|]. split; [cbn; lia|]. split; [reflexivity|]. reflexivity. Qed.

(** C147: an axis-angle point has one or three coordinates. *)
Theorem C147_axis_position : forall p ax t q, norm2 ax <> 0 -> (1 <= t_samples t)%Z -> length p <> 1%nat -> length p <> 3%nat -> axis_samples (AxisPt p ax t q) = Raise ValueError.
Proof. exact axis_position. Qed.
Print Assumptions C147_axis_position.
(** C147: the flags of check_for_tolerance mark the entries with a tolerance. *)
Theorem C147_tolerance_flags : forall l b n, check_for_tolerance l = Ok (b, n) -> Forall2 (fun v f => f = true <-> exists t, v = Tol t) l b.
Proof. exact tolerance_flags. Qed.
Print Assumptions C147_tolerance_flags.
Example C147_axis_example : norm2 (V3 0 0 1) <> 0 /\ exists b n, check_for_tolerance [Fix 0; Fix 0; Fix 0] = Ok (b, n). Proof. split; [unfold norm2, vdot; cbn; lra|eexists _, _; reflexivity]. Qed.

(** C147: after float32 arrays, a float64 array or a nonempty list is refused. *)
Theorem C147_mixed_types : forall (K : CostStruct) (F : Type) (f1 : F) (sq_acc : K -> F -> F -> F -> K) pq to32 n rows data c rest method ow,
  uniform n (rows :: data) -> Forall (fun col => col <> []) (rows :: data) -> qlen c <> 0%nat -> (forall nc rows, c <> QArr F32 nc rows) ->
  get_shortest_path f1 sq_acc pq to32 (arrays F32 n (rows :: data) ++ c :: rest) method ow = Raise TypeError.
Proof. exact @mixed_types. Qed.
Print Assumptions C147_mixed_types.
Example C147_mixed_example : uniform 1 [[[0]]] /\ qlen (QArr F64 1 [[0]]) <> 0%nat /\ forall nc rows, QArr F64 1 [[0]] <> QArr F32 nc rows.
Proof. split; [repeat constructor|]. split; [discriminate|intros; discriminate]. Qed.
(** C147: only points with free orientation can be resampled. *)
Theorem C147_resample : forall F T P D (fk : list F -> res T) (tol : T -> P) (halve : D -> D) (sp : spoint) q, sp_class sp <> CFree ->
  resample fk tol halve sp q = Raise (match sp_class sp with CTolPos => NameError | _ => ValueError end).
Proof. exact @resample_classes. Qed.
Print Assumptions C147_resample.
Example C147_resample_example : sp_class (mkSP (F := R) tt CAxis None tt) <> CFree. Proof. discriminate. Qed.

(** C147: the cost of joint vectors looks outside the weights or the second vector exactly when one of them is shorter than the first. *)
Theorem C147_cost2_short : forall (K : CostStruct) F (sq_acc : K -> F -> F -> F -> K) w n1 n2,
  cost2 sq_acc w n1 n2 = Raise OutOfBounds <-> (length w < length n1)%nat \/ (length n2 < length n1)%nat.
Proof. exact @cost2_short. Qed.
Print Assumptions C147_cost2_short.
(** C147: a graph without columns can be neither reset nor searched. *)
Theorem C147_empty_graph : forall (K : CostStruct) F (sq_acc : K -> F -> F -> F -> K) (g : cgraph K F), na g = [] -> creset g = Raise OutOfBounds /\ run_bfs sq_acc g = Raise OutOfBounds.
Proof. exact @empty_graph. Qed.
Print Assumptions C147_empty_graph.
Example C147_empty_example : na (@cnew ZCost nat) = []. Proof. reflexivity. Qed.

(** C147: inverse kinematics that raises stops the planners with the same exception. *)
Theorem C147_ik_raises : forall O (get : O -> robot) put prim to32 ik samples scene tp path T Ts o e, samples tp = Ok (T :: Ts) -> snd (ik o T) = Raise e ->
  snd (grid_columns get put prim to32 ik samples scene (tp :: path) o) = Raise e.
Proof. exact @grid_raises. Qed.
Print Assumptions C147_ik_raises.
Theorem C147_ik_simple_raises : forall O (get : O -> robot) put prim to32 ik disc scene tp path T Ts g qf o l e, disc tp = Ok (AFrame T :: Ts) -> snd (ik o T g) = Raise e ->
  snd (simple_columns get put prim to32 ik disc scene (tp :: path) (g :: qf) o l) = Raise e.
Proof. exact @simple_raises. Qed.
Print Assumptions C147_ik_simple_raises.
(** C147: as with a Kuka of fewer than six links and a rail without links *)
Theorem C147_kuka_short : forall k T, (length (r_links (k_rob k)) < 6)%nat -> kuka_ik k T = (k, Raise IndexError).
Proof. exact kuka_short. Qed.
Print Assumptions C147_kuka_short.
Theorem C147_rail_short : forall rl T q0, r_links (rl_rob rl) = [] -> rail_ik rl T q0 = (rl, Raise IndexError).
Proof. exact rail_short. Qed.
Print Assumptions C147_rail_short.
Example C147_kuka_example : (length (r_links (robot_init [])) < 6)%nat. Proof. cbn. lia. Qed.

(** C147: loading a URDF file gives a robot or ValueError; ill-named files are refused. *)
Theorem C147_load_only : forall N d, (exists u, Urdf.load N d = Ok u) \/ Urdf.load N d = Raise ValueError.
Proof. exact load_only. Qed.
Print Assumptions C147_load_only.
Theorem C147_load_refused : forall N d, ~ well_named d -> Urdf.load N d = Raise ValueError.
Proof. exact load_refused. Qed.
Print Assumptions C147_load_refused.
Example C147_load_example : ~ well_named (Urdf.Doc "" [] []). Proof. intros (_ & _ & _ & b & [] & _). Qed.

(** C147: lists of numbers must be lists. *)
Theorem C147_circle_axis : forall mid start axis n, ~ is_list axis -> Io.create_circle mid start axis n = Raise TypeError.
Proof. exact circle_axis. Qed.
Print Assumptions C147_circle_axis.
Theorem C147_box_size : forall l1 l2 j, ~ In "size"%string (map fst l1) -> ~ is_list j -> Io.create_box (Io.JObj (l1 ++ ("size"%string, j) :: l2)) = Raise TypeError.
Proof. exact box_size. Qed.
Print Assumptions C147_box_size.
Example C147_box_example : ~ is_list Io.JNull. Proof. intros [l C]. discriminate. Qed.
