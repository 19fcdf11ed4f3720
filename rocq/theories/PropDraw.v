(** * Property theorems C161-C166: drawings of frames, kinematic chains, tasks and
    the small passage; the alternative cost; the export of a task.

    [Art style colour points]: one call of ax.plot; [axis_line c p v]: a line of colour c
    from p to p + v; [dot v]: a red marker at v, and [is_dot] finds markers.
    [tripod o l as_]: three arrows of length |l| from o, red, green and blue,
    perpendicular, right-handed.  [upto r q k]: the frame after k joints.
    [reach2 l q]: a² + d² of a link, with q for d when prismatic.
    [nominals tp]: the nominal coordinates of a point; [shows lines P]: the lines are the
    edges of the boxes of P.  [turn_cost u v]: half the angle between two orientations;
    [aim g p]: the sum of turn² over the steps plus half of turn²
    from g over all points but the last; [aim_all]: over all points.  [goal]: 1.5 rad about y. *)
From Coq Require Import String List Arith Reals Lra.
From Verif Require Import PyBase Cost Dp Mat Util Geometry GeometryProofs Robot RobotProofs Path PathProofs Plot PlotProofs Io Urdf UrdfProofs Tasks TasksProofs Examples ExamplesProofs ResourcesProofs Mount Draw DrawProofs.
Import ListNotations.
Local Open Scope R_scope.

(** C161: a reference frame is three arrows along the columns of the rotation, ... *)
Theorem C161_axes : forall T l, reference_frame (Some T) l =
  [axis_line "r" (pos T) (vscale l (col0 (rot T))); axis_line "g" (pos T) (vscale l (col1 (rot T))); axis_line "b" (pos T) (vscale l (col2 (rot T)))].
Proof. exact frame_axes. Qed.
Print Assumptions C161_axes.
(** C161: ... perpendicular, right-handed and as long as asked for a rigid transform, ... *)
Theorem C161_tripod : forall T l, rigid T -> tripod (pos T) l (reference_frame (Some T) l).
Proof. exact frame_tripod. Qed.
Print Assumptions C161_tripod.
Example C161_example : rigid (translation 1 2 3). Proof. exact (translation_rigid 1 2 3). Qed.
(** C161: ... at the origin of the world without a transform ... *)
Theorem C161_default : forall l, reference_frame None l = reference_frame (Some eye4) l.
Proof. exact frame_default. Qed.
Print Assumptions C161_default.
(** C161: ... and moved with its transform. *)
Theorem C161_moves : forall A T l, rigid A -> rigid T -> reference_frame (Some (tmul A T)) l = map (moved_artist A) (reference_frame (Some T) l).
Proof. exact frame_moves. Qed.
Print Assumptions C161_moves.

(** C162: plot_kinematics draws the base frame, the chain of joints, a frame per link
    and one at the tool tip, ... *)
Theorem C162_drawn : forall r q, good r -> joints_ok r -> (1 <= ndof r <= length q)%nat ->
  snd (plot_kinematics r q) = Ok (reference_frame (Some (r_tfb r)) 0.2 ++ chain_line r q :: flat_map (fun k => reference_frame (Some (upto r q (S k))) 0.2) (seq 0 (ndof r)) ++ tool_frames r q).
Proof. exact kinematics_ok. Qed.
Print Assumptions C162_drawn.
(** C162: ... the last frame is that of the forward kinematics, ... *)
Theorem C162_last : forall r q, good r -> joints_ok r -> (1 <= ndof r <= length q)%nat ->
  exists before T, snd (plot_kinematics r q) = Ok (before ++ reference_frame (Some T) 0.2) /\ snd (fk r q) = Ok T.
Proof. exact kinematics_last. Qed.
Print Assumptions C162_last.
(** C162: ... consecutive points of the chain are as far apart as the link is long, ... *)
Theorem C162_links : forall r q k p p' l qk, good r -> joints_ok r -> rigid (r_tfb r) -> (ndof r <= length q)%nat ->
  nth_error (a_pts (chain_line r q)) k = Some p -> nth_error (a_pts (chain_line r q)) (S k) = Some p' -> nth_error (r_links r) k = Some l -> nth_error q k = Some qk ->
  norm2 (vsub p' p) = reach2 l qk.
Proof. exact kinematics_links. Qed.
Print Assumptions C162_links.
Example C162_example : good kuka_torch /\ joints_ok kuka_torch /\ rigid (r_tfb kuka_torch) /\ ndof kuka_torch = 6%nat.
Proof. split; [apply kuka_torch_case|]. split; [repeat constructor; discriminate|]. split; [apply kuka_torch_case|reflexivity]. Qed.
(** C162: ... the next drawing is not affected ... *)
Theorem C162_again : forall r q q', good r -> joints_ok r -> snd (plot_kinematics (fst (plot_kinematics r q)) q') = snd (plot_kinematics r q').
Proof. exact kinematics_again. Qed.
Print Assumptions C162_again.
(** C162: ... and short joint vectors and robots without links raise. *)
Theorem C162_short : forall r q, good r -> joints_ok r -> (length q < ndof r)%nat -> snd (plot_kinematics r q) = Raise IndexError.
Proof. exact kinematics_short. Qed.
Print Assumptions C162_short.
Theorem C162_no_links : forall r q, ndof r = 0%nat -> snd (plot_kinematics r q) = Raise ValueError.
Proof. exact kinematics_empty. Qed.
Print Assumptions C162_no_links.
Example C162_no_links_example : ndof (robot_init []) = 0%nat. Proof. reflexivity. Qed.

(** C163: a task is drawn with one marker per point, in order, at its nominal position,
    and the edges of the boxes of its scene ... *)
Theorem C163_task : forall d path sc, parse_task_data d = Ok (path, sc) -> Forall (fun tp => (3 <= length (nominals tp))%nat) path ->
  exists as_ ls vs, draw_task d = Ok (as_, ls) /\ Forall2 (fun tp v => firstn 3 (nominals tp) = vlist v) path vs /\ filter is_dot as_ = map dot vs /\ shows ls (member sc).
Proof. exact task_drawn. Qed.
Print Assumptions C163_task.
(** C163: ... for points of any class; a point with fewer coordinates raises; ... *)
Theorem C163_points : forall path scene, Forall drawable path -> exists as_ ls vs, task_plot path scene = Ok (as_, ls) /\
  Forall2 (fun tp v => firstn 3 (coords tp) = vlist v) path vs /\ filter is_dot as_ = map dot vs /\ scene_shows scene ls.
Proof. exact task_ok. Qed.
Print Assumptions C163_points.
Theorem C163_short : forall path scene, ~ Forall drawable path -> task_plot path scene = Raise IndexError.
Proof. exact task_short. Qed.
Print Assumptions C163_short.
Example C163_points_example : Forall drawable [AFree [1; 2; 3]; AOri [4; 5; 6]] /\ ~ Forall drawable [AFree [1; 2]].
Proof. split; [repeat constructor|]. intros H. inversion H as [|? ? H1 _]. exact (Nat.lt_irrefl _ H1). Qed.
(** C163: ... a point with angles also gets its nominal frame, at the marker. *)
Theorem C163_euler : forall pos_ rpy e, new_eulerpt pos_ rpy = Ok e -> exists T, nominal_transform e = Ok T /\ rigid T /\ firstn 3 (map nominal_of pos_) = vlist (pos T) /\
  point_plot (AEuler e) = Ok (dot (pos T) :: reference_frame (Some T) 0.2).
Proof. exact euler_drawn. Qed.
Print Assumptions C163_euler.
Example C163_euler_example : exists e, new_eulerpt [Fix 1; Fix 2; Fix 3] [Fix 0; Fix 0; Fix 0] = Ok e. Proof. eexists. reflexivity. Qed.
(** C163: what multiple_paths.py shows: ten markers on a line 3 cm above a table. *)
Theorem C163_multiple_paths : exists as_ ls, draw_task line_x_tol = Ok (as_, ls) /\
  as_ = map (fun k => dot (V3 0.8 (-0.2 + INR k / INR 9 * 0.4) 0.2)) (seq 0 10) /\ shows ls (fun s T => s = Shape 0.5 0.5 0.1 /\ T = M4 mid (V3 0.8 0 0.12) v0 1).
Proof. exact multiple_paths. Qed.
Print Assumptions C163_multiple_paths.

(** C164: cost_function_2 is meant to keep the orientations near the goal; refuted for the
    last point, which is not charged: ... *)
Theorem C164_last_refuted : exists data r qs, ref_plan data = Ok r /\ Forall (Forall (fun q => qnorm2 q = 1)) data /\ Forall2 (fun col q => In q col) data qs /\ aim_all goal qs < aim_all goal (dp_path _ r).
Proof. exact last_free. Qed.
Print Assumptions C164_last_refuted.
(** C164: ... the plan is the cheapest when the last point is left out of the sum; ... *)
Theorem C164_optimal_partial : forall data r, ref_plan data = Ok r -> Forall (fun col => col <> []) data ->
  Forall2 (fun col q => In q col) data (dp_path _ r) /\ dp_length _ r = Some (aim goal (dp_path _ r)) /\
  forall qs, Forall2 (fun col q => In q col) data qs -> aim goal (dp_path _ r) <= aim goal qs.
Proof. exact ref_sound. Qed.
Print Assumptions C164_optimal_partial.
Theorem C164_returns : forall data, (2 <= length data)%nat -> Forall (fun col => col <> []) data -> exists r, ref_plan data = Ok r /\ dp_success _ r = true.
Proof. exact ref_returns. Qed.
Print Assumptions C164_returns.
(** C164: ... and where the goal is free at every point, every point takes it, the last included. *)
Theorem C164_goal : forall data r, ref_plan data = Ok r -> Forall (Forall (fun q => qnorm2 q = 1)) data -> Forall (fun col => exists q, In q col /\ qrot q = rot_y 1.5) data ->
  dp_length _ r = Some 0 /\ Forall (fun q => qrot q = rot_y 1.5) (dp_path _ r).
Proof. exact goal_taken. Qed.
Print Assumptions C164_goal.
Example C164_example : exists r, ref_plan [[q_id; goal]; [goal]] = Ok r /\ qnorm2 goal = 1 /\ qnorm2 q_id = 1 /\ qrot goal = rot_y 1.5.
Proof. destruct (ref_returns [[q_id; goal]; [goal]]) as (r & E & _); [repeat constructor|repeat constructor; discriminate|]. exists r. split; [exact E|]. split; [exact goal_unit|]. split; [exact q_id_unit|exact goal_rot]. Qed.

(** C165: a task whose boxes are not rotated keeps its scene through export and import; ... *)
Theorem C165_export : forall N d s f path sc, parse_task_data d = Ok (path, sc) -> coll_of N s = sc -> c_s sc <> [] -> length (c_s sc) = length (c_tf sc) -> Forall (fun T => rot T = mid) (c_tf sc) ->
  exists f', task_to_urdf N d s f = Ok f' /\ import_urdf N f' = Ok sc.
Proof. exact urdf_export. Qed.
Print Assumptions C165_export.
(** C165: ... so task_to_urdf.py writes the scene that examples/scenes/small_passage.urdf holds. *)
Theorem C165_passage : forall N s f, decimal_reader N -> parse_obstacles small_passage_2 = Ok (coll_of N s) ->
  exists f', task_to_urdf N small_passage_2 s f = Ok f' /\ import_urdf N f' = parse_obstacles small_passage_2 /\ import_urdf N f' = import_doc N scene_small_passage.
Proof. exact passage_export. Qed.
Print Assumptions C165_passage.
(** C165: ... With the numbers printed as in the task it writes that very file. *)
Theorem C165_text : forall N s f, texts (sc_sizes N s) = ["0.1 0.03 0.2"; "0.1 0.03 0.2"; "0.035 0.03 0.1"]%string -> texts (map (f_pos N) (sc_tfs N s)) = ["0.7325 0.0 0.0"; "0.8675 0.0 0.0"; "0.8 0.0 0.05"]%string ->
  task_to_urdf N small_passage_2 s f = Ok (DocFile scene_small_passage).
Proof. exact passage_text. Qed.
Print Assumptions C165_text.
Example C165_example : exists s, decimal_reader decimals_N /\ parse_obstacles small_passage_2 = Ok (coll_of decimals_N s).
Proof. exists passage_numbers. split; [exact decimals_read|exact passage_scene]. Qed.
Example C165_text_example : texts (sc_sizes decimals_N passage_numbers) = ["0.1 0.03 0.2"; "0.1 0.03 0.2"; "0.035 0.03 0.1"]%string /\ texts (map (f_pos decimals_N) (sc_tfs decimals_N passage_numbers)) = ["0.7325 0.0 0.0"; "0.8675 0.0 0.0"; "0.8 0.0 0.05"]%string.
Proof. split; reflexivity. Qed.

(** C166: small_passage.py draws the torch at every second point, with its tip there and
    clear of the scene. *)
Theorem C166_picture : forall prim tool scene path r, exact_prim prim -> rigid_coll (fst tool) -> rigid (snd tool) -> rigid_coll scene -> Forall unit_samples path ->
  pass_plan prim tool scene path = Ok r ->
  exists pics, pass_drawn tool (pass_frames (dp_path _ r) path) = Ok pics /\ length pics = ((length path + 1) / 2)%nat /\
  forall k tp, nth_error path (2 * k) = Some tp -> exists ls F, nth_error pics k = Some ls /\ rigid F /\ tapply F (pos (snd tool)) = pp_p tp /\
    shows ls (fun s T => exists T0, member (fst tool) s T0 /\ T = tmul F T0) /\ forall x, ~ (in_coll (fst tool) (Some F) x /\ in_coll scene None x).
Proof. exact passage_picture. Qed.
Print Assumptions C166_picture.
Example C166_example : forall prim, exact_prim prim -> exists r, pass_plan prim ex_tool ex_scene ex_path = Ok r.
Proof. intros prim X. destruct (ex_plan prim X) as (r & E & _). exists r. exact E. Qed.
