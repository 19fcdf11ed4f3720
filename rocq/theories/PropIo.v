(** * Property theorems C79-C84 and C95-C98: io.py.

    [nums j = Ok l]: the json value j is the flat list of numbers l;
    [vec_field d k v]: d[k] is the vector v.  [lerp s a b]: a + s (b - a).
    [circle_at c s ax t]: s turned about the axis ax through c by 2 pi t.
    [symmetric p tol v]: v is the band [p - tol, p + tol] when tol > 0, else p. *)
From Coq Require Import String Reals Lra Lia List Bool Arith ZArith.
From Verif Require Import PyBase Mat Util UtilProofs Geometry Path PathProofs Io IoProofs.
Import ListNotations.
Local Open Scope R_scope.

(** C79 *)
Theorem C79_line : forall sp sj ep a b n, getitem sp "xyz" = Ok sj -> nums sj = Ok a -> nums ep = Ok b -> length a = length b ->
  exists ps, create_line sp ep (JInt (Z.of_nat n)) = Ok ps /\ length ps = n /\
  (forall k, (2 <= n)%nat -> (k < n)%nat -> nth_error ps k = Some (lerp (INR k / INR (n - 1)) a b)) /\
  ((1 <= n)%nat -> nth_error ps 0 = Some a) /\
  ((2 <= n)%nat -> nth_error ps (n - 1) = Some b).
Proof. exact line_spec. Qed.
Print Assumptions C79_line.
Theorem C79_line_errors : forall sp sj ep a b, getitem sp "xyz" = Ok sj -> nums sj = Ok a -> nums ep = Ok b ->
  (forall z, (z < 0)%Z -> create_line sp ep (JInt z) = Raise ValueError) /\
  (forall x, create_line sp ep (JFloat x) = Raise TypeError) /\
  (forall n, length a <> length b -> length a <> 1%nat -> length b <> 1%nat -> create_line sp ep (JInt (Z.of_nat n)) = Raise ValueError).
Proof. exact line_errors. Qed.
Print Assumptions C79_line_errors.
Example C79_example : exists sj, getitem (JObj [("xyz"%string, jvec 0 0 0)]) "xyz" = Ok sj /\ nums sj = Ok [0; 0; 0] /\ nums (jvec 1 2 3) = Ok [1; 2; 3].
Proof. exists (jvec 0 0 0). auto. Qed.

(** C80: also evenly spaced, at constant height along the axis *)
Theorem C80_circle : forall mj sj aj c s ax n, nums mj = Ok (vlist c) -> nums sj = Ok (vlist s) -> nums aj = Ok (vlist ax) -> norm2 ax <> 0 ->
  exists ps, create_circle mj sj aj (JInt (Z.of_nat n)) = Ok ps /\ length ps = n /\
  (forall k, (2 <= n)%nat -> (k < n)%nat -> nth_error ps k = Some (vlist (circle_at c s ax (INR k / INR (n - 1))))) /\
  (forall p, In p ps -> exists v, p = vlist v /\ norm2 (vsub v c) = norm2 (vsub s c) /\ vdot ax (vsub v c) = vdot ax (vsub s c)) /\
  ((1 <= n)%nat -> nth_error ps 0 = Some (vlist s)) /\
  ((2 <= n)%nat -> nth_error ps (n - 1) = Some (vlist s)).
Proof. exact circle_spec. Qed.
Print Assumptions C80_circle.
Example C80_example : nums (jvec 0 0 2) = Ok (vlist (V3 0 0 2)) /\ norm2 (V3 0 0 2) <> 0.
Proof. split; [reflexivity|]. unfold norm2, vdot. cbn. lra. Qed.

(** C81: [pos_point rpy tol p x]: x is a TolPositionPt with orientation rpy and
    coordinates symmetric about p; [euler_point]: a TolEulerPt at p *)
Theorem C81_position : forall ps rpy tol path, create_symmetric_position_tolerance ps rpy tol = Ok path -> Forall2 (pos_point rpy tol) ps path.
Proof. exact position_tolerance_spec. Qed.
Print Assumptions C81_position.
Theorem C81_position_returns : forall ps rpy tol, (3 <= length rpy)%nat -> (3 <= length tol)%nat -> Forall (fun p => (3 <= length p)%nat) ps ->
  exists path, create_symmetric_position_tolerance ps rpy tol = Ok path.
Proof. exact position_tolerance_returns. Qed.
Print Assumptions C81_position_returns.
Theorem C81_euler : forall ps rpy tol path, create_symmetric_euler_tolerance ps rpy tol = Ok path -> Forall2 (euler_point rpy tol) ps path.
Proof. exact euler_tolerance_spec. Qed.
Print Assumptions C81_euler.
Theorem C81_euler_returns : forall ps rpy tol, (3 <= length rpy)%nat -> (3 <= length tol)%nat -> Forall (fun p => (3 <= length p)%nat) ps ->
  exists path, create_symmetric_euler_tolerance ps rpy tol = Ok path.
Proof. exact euler_tolerance_returns. Qed.
Print Assumptions C81_euler_returns.
Example C81_example : exists path, create_symmetric_position_tolerance [[1; 2; 3]] [0; 0; 0] [1; 0; -1] = Ok path.
Proof. apply position_tolerance_returns; cbn; auto. Qed.

(** C82: refuted for 90 degrees; it holds exactly for values up to 10. *)
Theorem C82_unit_refuted : exists v, guess_angle_unit (- v) <> - guess_angle_unit v.
Proof. exact guess_refuted. Qed.
Print Assumptions C82_unit_refuted.
Theorem C82_unit_exactly_partial : forall v, guess_angle_unit (- v) = - guess_angle_unit v <-> -10 <= v <= 10.
Proof. exact guess_neg_iff. Qed.
Print Assumptions C82_unit_exactly_partial.

(** C83: a returned path has the requested number of points of the class
    belonging to the tolerance type, for every dictionary *)
Theorem C83_parse_path : forall d path, parse_path d = Ok path -> exists pd t tl, getitem d "path" = Ok pd /\
  getitem pd "type" = Ok t /\ known_type t /\ getitem pd "tolerance" = Ok tl /\ known_tolerance tl /\
  getitem pd "num_points" = Ok (JInt (Z.of_nat (length path))) /\ Forall (in_class tl) path.
Proof. exact parse_path_sound. Qed.
Print Assumptions C83_parse_path.
(** complete fields give a path *)
Theorem C83_parse_path_returns : forall d pd n, getitem d "path" = Ok pd -> geometry_ok pd n -> tolerance_ok pd -> exists path, parse_path d = Ok path /\ length path = n.
Proof. exact parse_path_complete. Qed.
Print Assumptions C83_parse_path_returns.
Theorem C83_unknown_type : forall d pd t, getitem d "path" = Ok pd -> getitem pd "type" = Ok t -> ~ known_type t -> parse_path d = Raise GenericException.
Proof. exact parse_path_type. Qed.
Print Assumptions C83_unknown_type.
Theorem C83_unknown_tolerance : forall d pd ps t, getitem d "path" = Ok pd -> path_positions pd = Ok ps -> getitem pd "tolerance" = Ok t -> ~ known_tolerance t -> parse_path d = Raise GenericException.
Proof. exact parse_path_tolerance. Qed.
Print Assumptions C83_unknown_tolerance.
Example C83_example : geometry_ok demo_path 3 /\ tolerance_ok demo_path.
Proof. exact (conj demo_geometry demo_tolerance). Qed.

(** C84: [entries js ss Ts]: the i-th entry is a box of size ss_i at Ts_i *)
Theorem C84_obstacles : forall d js ss Ts, getitem d "obstacles" = Ok (JList js) -> (parse_obstacles d = Ok (Coll ss Ts) <-> entries js ss Ts).
Proof. exact obstacles_spec. Qed.
Print Assumptions C84_obstacles.
Theorem C84_entries : forall js ss Ts, entries js ss Ts -> length ss = length js /\ length Ts = length js /\ Forall rigid Ts /\
  forall i j, nth_error js i = Some j -> exists s T, nth_error ss i = Some s /\ nth_error Ts i = Some T /\ box_entry j s T.
Proof. exact entries_shape. Qed.
Print Assumptions C84_entries.
Theorem C84_not_a_box : forall d js1 j js2 t ss Ts, getitem d "obstacles" = Ok (JList (js1 ++ j :: js2)) -> entries js1 ss Ts -> getitem j "type" = Ok t -> t <> JStr "box" ->
  parse_obstacles d = Raise GenericException.
Proof. exact obstacles_other. Qed.
Print Assumptions C84_not_a_box.
Example C84_example : exists s T, parse_shape demo_box = Ok (s, T).
Proof. eexists. eexists. reflexivity. Qed.

(** C95: [position_at pd n k v]: v is the k-th of n positions on the line or
    circle of pd; [close t x y]: |x - y| <= max(0, t) *)
Theorem C95_free : forall d path pd k v x, parse_path d = Ok path -> getitem d "path" = Ok pd -> getitem pd "tolerance" = Ok (JStr "orientation_free") ->
  position_at pd (length path) k v -> nth_error path k = Some x -> x = PFree (vlist v).
Proof. exact free_task. Qed.
Print Assumptions C95_free.
Theorem C95_position : forall d path pd sp a b c tol k v x, parse_path d = Ok path -> getitem d "path" = Ok pd -> getitem pd "tolerance" = Ok (JStr "position_tolerance") ->
  getitem pd "start_pose" = Ok sp -> vec_field sp "rpy" (V3 a b c) -> vec_field pd "xyz_tol" tol -> position_at pd (length path) k v -> nth_error path k = Some x ->
  exists pt l, x = PPos pt /\ pos_samples pt = Ok l /\ length l = (tol_count (vx tol) * tol_count (vy tol) * tol_count (vz tol))%nat /\
  forall T, In T l -> rigid T /\ rot T = rot_xyz a b c /\ close (vx tol) (vx (pos T)) (vx v) /\ close (vy tol) (vy (pos T)) (vy v) /\ close (vz tol) (vz (pos T)) (vz v).
Proof. exact position_task. Qed.
Print Assumptions C95_position.
Theorem C95_euler : forall d path pd sp rpy tol k v x, parse_path d = Ok path -> getitem d "path" = Ok pd -> getitem pd "tolerance" = Ok (JStr "euler_tolerance") ->
  getitem pd "start_pose" = Ok sp -> vec_field sp "rpy" rpy -> vec_field pd "rpy_tol" tol -> position_at pd (length path) k v -> nth_error path k = Some x ->
  let g := guess_angle_unit in
  exists pt l, x = PEuler pt /\ euler_samples pt = Ok l /\ length l = (tol_count (g (vx tol)) * tol_count (g (vy tol)) * tol_count (g (vz tol)))%nat /\
  forall T, In T l -> rigid T /\ pos T = v /\ exists a b c, rot T = rot_xyz a b c /\ close (g (vx tol)) a (g (vx rpy)) /\ close (g (vy tol)) b (g (vy rpy)) /\ close (g (vz tol)) c (g (vz rpy)).
Proof. exact euler_task. Qed.
Print Assumptions C95_euler.
Example C95_example : (exists path, parse_path demo_task = Ok path /\ length path = 3%nat) /\ position_at demo_path 3 1 (V3 1 0 0).
Proof. split; [exact (parse_path_complete demo_task demo_path 3 eq_refl demo_geometry demo_tolerance)|exact demo_position]. Qed.

(** C96: refuted: the ten samples of a band leave out its middle ... *)
Theorem C96_nominal_sampled_refuted : exists d path pd k v pt l, parse_path d = Ok path /\ getitem d "path" = Ok pd /\ position_at pd (length path) k v /\ nth_error path k = Some (PPos pt) /\
  pos_samples pt = Ok l /\ ~ exists T, In T l /\ pos T = v.
Proof. exact demo_refuted. Qed.
Print Assumptions C96_nominal_sampled_refuted.
(** C96: ... for every path with a positive tolerance. *)
Theorem C96_nominal_never_sampled : forall d path pd sp a b c tol k v pt l, parse_path d = Ok path -> getitem d "path" = Ok pd -> getitem pd "tolerance" = Ok (JStr "position_tolerance") ->
  getitem pd "start_pose" = Ok sp -> vec_field sp "rpy" (V3 a b c) -> vec_field pd "xyz_tol" tol -> position_at pd (length path) k v -> nth_error path k = Some (PPos pt) ->
  0 < vx tol \/ 0 < vy tol \/ 0 < vz tol -> pos_samples pt = Ok l -> ~ exists T, In T l /\ pos T = v.
Proof. exact position_task_nominal. Qed.
Print Assumptions C96_nominal_never_sampled.

(** C97 *)
Theorem C97_task : forall d path scene, parse_task_data d = Ok (path, scene) <-> parse_path d = Ok path /\ parse_obstacles d = Ok scene.
Proof. exact task_spec. Qed.
Print Assumptions C97_task.
Theorem C97_import_paths : forall d js, getitem d "paths" = Ok (JList js) -> forall paths,
  import_paths d = Ok paths <-> Forall2 (fun j p => parse_path (JObj [("path"%string, j)]) = Ok p) js paths.
Proof. exact import_paths_spec. Qed.
Print Assumptions C97_import_paths.
Example C97_example : exists path scene, parse_task_data demo_task = Ok (path, scene).
Proof.
  destruct (parse_path_complete demo_task demo_path 3 eq_refl demo_geometry demo_tolerance) as (path & E & _). eexists path, _.
  apply task_spec. split; [exact E|reflexivity].
Qed.

(** C98 *)
Theorem C98_matrix_quaternion : forall A, rotation A -> qnorm2 (quat_of_matrix A) = 1 /\ qrot (quat_of_matrix A) = A.
Proof. exact quat_of_matrix_rot. Qed.
Print Assumptions C98_matrix_quaternion.
Theorem C98_rpy_quaternion : forall a b c r, exists q, rpy_to_quaternion (a :: b :: c :: r) = Ok q /\ qnorm2 q = 1 /\ qrot q = rot_xyz a b c.
Proof. exact rpy_quat. Qed.
Print Assumptions C98_rpy_quaternion.
Example C98_example : rotation (rot_xyz 1 2 3).
Proof. exact (rot_xyz_rotation 1 2 3). Qed.
