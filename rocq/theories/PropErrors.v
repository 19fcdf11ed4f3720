(** * Property theorems C140: what the functions do with malformed input.

    [Raise e]: the exception e.  [ring]: links carried in a circle.  [after r qs]:
    the robot after drawing qs. *)
From Coq Require Import String Reals Lra Lia List Bool Arith ZArith.
From Verif Require Import PyBase Cost GraphCommon PyGraph PyCost Dp Mat Util Geometry Robot RobotProofs FloatFk Path Planning Io Plot Gui ErrorProofs.
From Verif Require Urdf.
Import ListNotations.
Local Open Scope R_scope.

(** C140: a point of fewer than six numbers has no frame. *)
Theorem C140_frame_short : forall p, (length p < 6)%nat -> point_to_frame p = Raise (if (length p =? 0)%nat || (length p =? 2)%nat then ValueError else IndexError).
Proof. exact to_frame_short. Qed.
Print Assumptions C140_frame_short.
Theorem C140_frame_long : forall x y z a b c p,
  point_to_frame (x :: y :: z :: a :: b :: c :: p) = Ok (M4 (mmul (rot_x a) (mmul (rot_y b) (rot_z c))) (V3 x y z) v0 1).
Proof. exact to_frame_long. Qed.
Print Assumptions C140_frame_long.
(** C140: fewer than three tolerances are refused, further ones ignored. *)
Theorem C140_tolerance_short : forall l, (length l < 3)%nat -> check_for_tolerance l = Raise IndexError.
Proof. exact tolerance_short. Qed.
Print Assumptions C140_tolerance_short.
Theorem C140_tolerance_long : forall l, (3 <= length l)%nat -> check_for_tolerance l = Ok (map has_tol l, map nominal_of (firstn 3 l)).
Proof. exact tolerance_long. Qed.
Print Assumptions C140_tolerance_long.
Example C140_short_example : (length [Fix 1; Fix 2] < 3)%nat /\ (length [1; 2; 3] < 6)%nat. Proof. cbn. lia. Qed.

(** C140: task files without the entries read, or that are no objects at all. *)
Theorem C140_no_path : forall l, ~ In "path"%string (map fst l) -> parse_path (JObj l) = Raise KeyError /\ parse_task_data (JObj l) = Raise KeyError.
Proof. exact no_path. Qed.
Print Assumptions C140_no_path.
Theorem C140_no_obstacles : forall l, ~ In "obstacles"%string (map fst l) -> parse_obstacles (JObj l) = Raise KeyError.
Proof. exact no_obstacles. Qed.
Print Assumptions C140_no_obstacles.
Theorem C140_no_paths : forall l, ~ In "paths"%string (map fst l) -> import_paths (JObj l) = Raise KeyError.
Proof. exact no_paths. Qed.
Print Assumptions C140_no_paths.
Theorem C140_no_object : forall j, ~ is_obj j -> parse_path j = Raise TypeError /\ parse_obstacles j = Raise TypeError /\ import_paths j = Raise TypeError.
Proof. exact no_object. Qed.
Print Assumptions C140_no_object.
(** C140: a number or null in the place of a list *)
Theorem C140_scalar_list : forall j l1 l2, scalar j ->
  (~ In "obstacles"%string (map fst l1) -> parse_obstacles (JObj (l1 ++ ("obstacles"%string, j) :: l2)) = Raise TypeError) /\
  (~ In "paths"%string (map fst l1) -> import_paths (JObj (l1 ++ ("paths"%string, j) :: l2)) = Raise TypeError).
Proof. exact scalar_list. Qed.
Print Assumptions C140_scalar_list.
(** C140: a negative number of points *)
Theorem C140_circle_negative : forall e c s n, norm2 e <> 0 -> (n < 0)%Z ->
  create_circle (JList (map JFloat (vlist c))) (JList (map JFloat (vlist s))) (JList (map JFloat (vlist e))) (JInt n) = Raise ValueError.
Proof. exact circle_negative. Qed.
Print Assumptions C140_circle_negative.
Theorem C140_line_negative : forall l1 l2 p e n, ~ In "xyz"%string (map fst l1) -> (n < 0)%Z ->
  create_line (JObj (l1 ++ ("xyz"%string, JList (map JFloat (vlist p))) :: l2)) (JList (map JFloat (vlist e))) (JInt n) = Raise ValueError.
Proof. exact line_negative. Qed.
Print Assumptions C140_line_negative.
Example C140_json_example : ~ In "path"%string (map fst [("obstacles"%string, JNull)]) /\ ~ is_obj (JList []) /\ scalar JNull /\ norm2 (V3 0 0 1) <> 0 /\ (-1 < 0)%Z.
Proof. split; [intros [C|[]]; discriminate|]. split; [intros [l C]; discriminate|]. split; [exact I|]. split; [unfold norm2, vdot; cbn; lra|lia]. Qed.

(** C140: the cost of two configurations of different lengths *)
Theorem C140_cost_shapes : forall u v, py_cost u v = Raise ValueError <-> length u <> length v.
Proof. exact cost_shapes. Qed.
Print Assumptions C140_cost_shapes.
(** C140: start and target columns that do not exist *)
Theorem C140_start_outside : forall (K : CostStruct) D cost (g : PyGraph.graph K D) mc start, (length (g_na g) <= start)%nat ->
  run_multi_source_bfs cost mc start g = Raise IndexError.
Proof. exact @start_outside. Qed.
Print Assumptions C140_start_outside.
Theorem C140_target_outside : forall (K : CostStruct) D (g : PyGraph.graph K D) t, (length (g_na g) <= t)%nat -> get_path (Some t) g = Raise IndexError.
Proof. exact @target_outside. Qed.
Print Assumptions C140_target_outside.
(** C140: a path of indices either picks one entry of each column, or is refused with an index that has none. *)
Theorem C140_path_data : forall D pi (data : list (list D)),
  (exists l, path_index_to_path pi data = Ok l /\ Forall2 (fun p xc => nth_error (snd xc) p = Some (fst xc)) pi (combine l data) /\ length l = length pi) \/
  path_index_to_path pi data = Raise IndexError /\ exists k p, nth_error pi k = Some p /\ forall col, nth_error data k = Some col -> (length col <= p)%nat.
Proof. exact @path_data. Qed.
Print Assumptions C140_path_data.
(** C140: fewer tables of indices than columns *)
Theorem C140_extract_short : forall D (data : list (list D)) v_ind i, (length v_ind < length data)%nat -> extract_loop data v_ind i = Raise IndexError.
Proof. exact @extract_short. Qed.
Print Assumptions C140_extract_short.
Example C140_graph_example : (length (g_na (new_graph (K := ZCost) [[0%nat]])) <= 1)%nat /\ length [1] <> length [1; 2]. Proof. cbn. lia. Qed.

(** C140: joint solutions of different lengths do not stack. *)
Theorem C140_pack : forall F (to32 : F -> F) q qs,
  (Forall (fun q' => length q' = length q) qs -> pack to32 (q :: qs) = Ok (QArr F32 (length q) (map (map to32) (q :: qs)))) /\
  (~ Forall (fun q' => length q' = length q) qs -> pack to32 (q :: qs) = Raise ValueError).
Proof. exact @pack_spec. Qed.
Print Assumptions C140_pack.
(** C140: comparing a shape with a list of shapes works for no list but the empty one. *)
Theorem C140_shape_multi : forall s others, shape_collision_multi s others = match others with [] => Ok false | _ => Raise TypeError end.
Proof. exact multi_spec. Qed.
Print Assumptions C140_shape_multi.

(** C140: too few joint values, or a joint that neither turns nor slides, whatever the rounding *)
Theorem C140_fk_short : forall A r q, joints_ok r -> (length q < ndof r)%nat -> snd (ffk A r q) = Raise IndexError /\ snd (ffk_all_links A r q) = Raise IndexError.
Proof. exact ffk_short. Qed.
Print Assumptions C140_fk_short.
Theorem C140_fk_unknown : forall A r q k l, nth_error (r_links r) k = Some l -> l_jt l = JOther -> all_joints (firstn k (r_links r)) -> (k < length q)%nat ->
  snd (ffk A r q) = Raise UnboundLocalError /\ snd (ffk_all_links A r q) = Raise UnboundLocalError.
Proof. exact ffk_unknown. Qed.
Print Assumptions C140_fk_unknown.
(** C140: drawing a path stops with the first configuration that cannot be drawn. *)
Theorem C140_plot_stops : forall qs r q rest e, snd (robot_plot (after r qs) q) = Raise e ->
  (forall k q', nth_error qs k = Some q' -> exists ls, snd (robot_plot (after r (firstn k qs)) q') = Ok ls) ->
  snd (plot_path r (qs ++ q :: rest)) = Raise e.
Proof. exact plot_stops. Qed.
Print Assumptions C140_plot_stops.
Example C140_robot_example : let r := robot_init [new_link (DH 0 0 0 0) JR (Coll [] [])] in
  joints_ok r /\ (length (@nil R) < ndof r)%nat /\ snd (robot_plot (after r []) []) = Raise IndexError.
Proof. split; [repeat constructor; discriminate|]. split; [cbn; lia|reflexivity]. Qed.

(** C140: a URDF vector is three numbers. *)
Theorem C140_read3 : forall N s, (exists x y z, Urdf.read3 N s = Ok (x, y, z) /\ map (Urdf.read N) (Urdf.tokens s "") = [Some x; Some y; Some z]) \/
  Urdf.read3 N s = Raise ValueError /\ forall x y z, map (Urdf.read N) (Urdf.tokens s "") <> [Some x; Some y; Some z].
Proof. exact read3_spec. Qed.
Print Assumptions C140_read3.
(** C140: a URDF file whose links carry each other in a circle is not loaded. *)
Theorem C140_cyclic : forall N d ring u, ring <> [] -> (forall s, In s ring -> In s (map Urdf.l_name (Urdf.d_links d))) -> cyclic (Urdf.d_joints d) ring -> Urdf.load N d <> Ok u.
Proof. exact cyclic_refused. Qed.
Print Assumptions C140_cyclic.
Example C140_cyclic_example : cyclic [Urdf.Joint "j" "a" "b" "0 0 0" "0 0 0"; Urdf.Joint "k" "b" "a" "0 0 0" "0 0 0"] ["a"; "b"]%string.
Proof. intros s [<-|[<-|[]]]; [exists (Urdf.Joint "k" "b" "a" "0 0 0" "0 0 0")|exists (Urdf.Joint "j" "a" "b" "0 0 0" "0 0 0")]; cbn; auto. Qed.

(** C140: the editor cannot draw a path with a point that tolerates positions only. *)
Theorem C140_no_nominal : forall path p paths, In (PPos p) path ->
  Forall (fun tp => match tp with PEuler e => (6 <= length (e_nominal e))%nat | PFree x => (3 <= length x)%nat | PPos _ => True end) path ->
  drawn_frames (path :: paths) = Raise AttributeError.
Proof. exact no_nominal. Qed.
Print Assumptions C140_no_nominal.
Example C140_no_nominal_example : exists p, In (PPos p) [PPos p]. Proof. exists (PosPt [] [] (Quat 1 0 0 0)). left. reflexivity. Qed.
